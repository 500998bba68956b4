(** * Programs with integer columns (C68)

    `solve_relaxation` ignores that columns are integer.  The specification is SpecInteger.v: [isolution] and [ioptimal]
    are about solutions that give whole numbers to the integer columns, [branches f fs] says that the programs [fs] together
    keep the integer solutions of [f], [branch_down] and [branch_up] add a bound, and [with_row] adds a row.  [answered], the outcomes
    and their order are from SpecOrder.v, [best_of] from SpecCases.v. *)
From Verif Require Import Examples ExGeneral ExParse ExFile ExOrder ExUnits ExInteger SpecInteger IntegerP CutP OrderP.
Local Open Scope string_scope.
Local Open Scope list_scope.
Local Open Scope Qc_scope.

(** No integer solution is better than the answer, and there is none if there is no solution. *)
Theorem C68_bound : forall f s y, file_solvable f -> answered f (Solved_to s) -> isolution f y -> better (fsense f) (fcost f (answer_at s)) (fcost f y).
Proof. exact relaxation_bound. Qed.
Print Assumptions C68_bound.
Theorem C68_none : forall f y, file_solvable f -> answered f NoSolution -> ~ isolution f y.
Proof. exact relaxation_none. Qed.
Print Assumptions C68_none.
(** Reported values that are whole numbers where they have to be are the best ones. *)
Theorem C68_whole : forall f s, file_solvable f -> answered f (Solved_to s) -> (forall c, integer_column f c -> whole_number (answer_at s c)) -> ioptimal f (answer_at s).
Proof. exact relaxation_whole. Qed.
Print Assumptions C68_whole.
(** If the costs are whole numbers, the bound may be rounded. *)
Theorem C68_rounded : forall f s y z, file_solvable f -> answered f (Solved_to s) -> whole_cost f -> rounded (fsense f) (fcost f (answer_at s)) z -> isolution f y ->
  better (fsense f) (Q2Qc (inject_Z z)) (fcost f y).
Proof. exact relaxation_rounded. Qed.
Print Assumptions C68_rounded.

(** ** Branches *)
(** A column is at most [n] or at least [n + 1], and branches may be divided again, so that all trees of branches are covered. *)
Theorem C68_split : forall n g g' c f, integer_column f c -> In c (names_of_columns f) -> keeps_lower n c f -> branches f [branch_down n g c f; branch_up n g' c f].
Proof. exact branches_split. Qed.
Print Assumptions C68_split.
Theorem C68_again : forall f fs g gs fs', branches f (fs ++ g :: fs') -> branches g gs -> branches f (fs ++ gs ++ fs').
Proof. exact branches_again. Qed.
Print Assumptions C68_again.
(** The best answer in the branches is a bound on the integer solutions. *)
Theorem C68_branches_bound : forall f fs l y, Forall file_solvable fs -> branches f fs -> Forall2 answered fs l -> isolution f y ->
  no_worse (fsense f) (best_of (fsense f) fs l) (Value (fcost f y)).
Proof. exact branches_bound. Qed.
Print Assumptions C68_branches_bound.
(** Values reported in a branch that are whole where they have to be, and no worse than the answers in the other branches,
    are the best ones. *)
Theorem C68_branches_optimal : forall f fs l g s, Forall file_solvable fs -> branches f fs -> Forall2 answered fs l -> In (g, Solved_to s) (combine fs l) ->
  (forall c, integer_column f c -> whole_number (answer_at s c)) ->
  (forall g' a', In (g', a') (combine fs l) -> no_worse (fsense f) (Value (fcost g (answer_at s))) (outcome_of g' a')) -> ioptimal f (answer_at s).
Proof. exact branches_optimal. Qed.
Print Assumptions C68_branches_optimal.
(** The same is true of an integer solution that was found in any other way. *)
Theorem C68_incumbent : forall f fs l x, Forall file_solvable fs -> branches f fs -> Forall2 answered fs l -> isolution f x ->
  (forall g a, In (g, a) (combine fs l) -> no_worse (fsense f) (Value (fcost f x)) (outcome_of g a)) -> ioptimal f x.
Proof. exact branches_incumbent. Qed.
Print Assumptions C68_incumbent.
(** What is within [e] of the best answer in the branches is within [e] of all integer solutions. *)
Theorem C68_gap : forall f fs l x y v e, Forall file_solvable fs -> branches f fs -> Forall2 answered fs l -> best_of (fsense f) fs l = Value v ->
  within_gap (fsense f) e (fcost f x) v -> isolution f y -> within_gap (fsense f) e (fcost f x) (fcost f y).
Proof. exact branches_gap. Qed.
Print Assumptions C68_gap.
(** There is no integer solution if no branch has a solution. *)
Theorem C68_branches_none : forall f fs l, Forall file_solvable fs -> branches f fs -> Forall2 answered fs l -> (forall a, In a l -> a = NoSolution) -> forall x, ~ isolution f x.
Proof. exact branches_none. Qed.
Print Assumptions C68_branches_none.

(** ** Cuts *)
(** A row that all integer solutions satisfy may be added, and this may be mixed with branches. *)
Theorem C68_cut : forall k r l b f f2, file_solvable f -> file_solvable f2 -> with_row k r l b f f2 -> (forall x, isolution f x -> plain_holds k b (weighed l x)) -> branches f [f2].
Proof. exact cut_branches. Qed.
Print Assumptions C68_cut.
(** So may a row with whole coefficients for integer columns, whose right-hand side is rounded. *)
Theorem C68_rounded_cut : forall k r l z f f2, file_solvable f -> file_solvable f2 -> with_row k r l (Q2Qc (inject_Z z)) f f2 ->
  (forall c v, In (c, v) l -> integer_column f c /\ whole_number v) -> rounds_to k l z f -> branches f [f2].
Proof. exact rounded_branches. Qed.
Print Assumptions C68_rounded_cut.

(** A program whose answer has 7/2 for the integer column XONE; the branches at 3 and 4 have answers 17/4 and 3, and the second
    one has whole numbers. *)
Example C68_case : file_solvable mixed_file /\ answered mixed_file mixed_answer /\ (forall c, integer_column mixed_file c <-> c = "XONE") /\
  branch_down 3 "BND2" "XONE" mixed_file = down_file /\ branch_up 3 "BND2" "XONE" mixed_file = up_file /\ keeps_lower 3 "XONE" mixed_file /\
  Forall file_solvable [down_file; up_file] /\ branches mixed_file [down_file; up_file] /\ Forall2 answered [down_file; up_file] [down_answer; up_answer].
Proof.
  refine (conj mixed_solvable (conj mixed_answered (conj mixed_integer (conj mixed_down (conj mixed_up (conj _ (conj _ (conj mixed_branches _)))))))).
  - left. discriminate.
  - exact (Forall_cons _ down_solvable (Forall_cons _ up_solvable (Forall_nil _))).
  - exact (Forall2_cons _ _ down_answered (Forall2_cons _ _ up_answered (Forall2_nil _))).
Qed.
Example C68_case_optimal : ioptimal mixed_file (answer_at (mk_solution (q 3 1) [("XONE", q 4 1); ("YTWO", q (-1) 1); ("ZTHREE", q 6 1)])).
Proof.
  destruct C68_case as (_ & _ & N & _ & _ & _ & S & B & A). apply (C68_branches_optimal mixed_file _ _ up_file _ S B A).
  - right. left. reflexivity.
  - intros c C. apply N in C. subst c. exists 4%Z. reflexivity.
  - intros g a [E|[E|[]]]; injection E as <- <-; cbn [down_answer up_answer outcome_of no_worse]; vm_compute; discriminate.
Qed.
Example C68_case_incumbent : isolution mixed_file (answer_at (mk_solution (q 3 1) [("XONE", q 4 1); ("YTWO", q (-1) 1); ("ZTHREE", q 6 1)])) /\
  forall g a, In (g, a) (combine [down_file; up_file] [down_answer; up_answer]) ->
    no_worse (fsense mixed_file) (Value (fcost mixed_file (answer_at (mk_solution (q 3 1) [("XONE", q 4 1); ("YTWO", q (-1) 1); ("ZTHREE", q 6 1)])))) (outcome_of g a).
Proof.
  split; [exact (proj1 C68_case_optimal)|]. intros g a [E|[E|[]]]; injection E as <- <-; cbn [down_answer up_answer outcome_of no_worse]; vm_compute; discriminate.
Qed.
(** The best answer in these branches is 3, so that the values of the first one, with cost 17/4, are within 5/4. *)
Example C68_case_gap : best_of (fsense mixed_file) [down_file; up_file] [down_answer; up_answer] = Value (q 3 1) /\
  within_gap (fsense mixed_file) (q 5 4) (fcost mixed_file (answer_at (mk_solution (q 17 4) [("XONE", q 3 1); ("YTWO", q (-1) 2); ("ZTHREE", q 13 2)]))) (q 3 1).
Proof. split; [|vm_compute; discriminate]. vm_compute. f_equal. Qed.
(** A program with costs 1 and 3 for integer columns: the answer costs 5/4, so that no integer solution costs less than 2. *)
Example C68_case_rounded : file_solvable counted_file /\ answered counted_file counted_answer /\ whole_cost counted_file /\
  rounded (fsense counted_file) (fcost counted_file (answer_at (mk_solution (q 5 4) [("XONE", q 5 4); ("YTWO", q 0 1); ("ZTHREE", q 7 1)]))) 2.
Proof. refine (conj counted_solvable (conj counted_answered (conj counted_whole _))). split; [vm_compute; discriminate|vm_compute; reflexivity]. Qed.
(** The sum of the integer columns of that program is at least 5/4, so that 2 is a right-hand side of a cut; the answer with the
    cut has whole numbers, and is the best one. *)
Example C68_case_cut : file_solvable cut_file /\ with_row KGreater "CUT" [("XONE", q 1 1); ("YTWO", q 1 1)] (Q2Qc (inject_Z 2)) counted_file cut_file /\
  (forall c v, In (c, v) [("XONE", q 1 1); ("YTWO", q 1 1)] -> integer_column counted_file c /\ whole_number v) /\
  rounds_to KGreater [("XONE", q 1 1); ("YTWO", q 1 1)] 2 counted_file /\ answered cut_file cut_answer.
Proof. exact (conj cut_solvable (conj counted_cut (conj counted_integers (conj counted_rounds cut_answered)))). Qed.
Example C68_case_cut_optimal : ioptimal counted_file (answer_at (mk_solution (q 2 1) [("XONE", q 2 1); ("YTWO", q 0 1); ("ZTHREE", q 7 1)])).
Proof.
  destruct C68_case_cut as (S & W & N & R & A). pose proof (C68_rounded_cut _ _ _ _ _ _ counted_solvable S W N R) as B.
  apply (C68_branches_optimal counted_file [cut_file] [cut_answer] cut_file _ (Forall_cons _ S (Forall_nil _)) B (Forall2_cons _ _ A (Forall2_nil _))).
  - left. reflexivity.
  - intros c [H|(t & g & H & M)]; cbn in H; repeat (destruct H as [H|H]; [first [discriminate H|injection H as <- <- <-; cbn in M; first [destruct M; fail|exists 2%Z; reflexivity|exists 0%Z; reflexivity]]|]); destruct H.
  - intros g a [E|[]]. injection E as <- <-. apply Qcle_refl.
Qed.
