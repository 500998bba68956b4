(** * Properties of a program and its dual, and of programs between two others (C61, C62)

    The specifications are SpecPair.v and SpecMix.v on top of SpecOrder.v, SpecFDual.v and SpecFile.v. *)
From Verif Require Import Examples ExGeneral ExParse ExPair ExMix PairP MixP.
Local Open Scope string_scope.
Local Open Scope list_scope.
Local Open Scope Qc_scope.

(** ** The dual (C61) *)
(** Whatever way the answers were got: the optimal costs are equal, and when one program has no bound the other has no
    solution. *)
Theorem C61_outcomes : forall f f' a a', file_solvable f -> file_solvable f' -> dual f f' -> answered f a -> answered f' a' -> dual_outcomes (outcome_of f a) (outcome_of f' a').
Proof. exact (fun f f' a a' FS FS' D => dual_answers f f' FS FS' D a a'). Qed.
Print Assumptions C61_outcomes.
(** No solution of the dual is worth more than a solution of the program costs. *)
Theorem C61_weak : forall f f' x y, file_solvable f -> file_solvable f' -> dual f f' -> ffeasible f x -> ffeasible f' y -> fcost f' y <= fcost f x.
Proof. exact (fun f f' x y FS FS' D => weak_duality f f' FS FS' D x y). Qed.
Print Assumptions C61_weak.
(** A constraint with a price that is not zero holds with equality, and so does the constraint of the dual that belongs
    to a variable that is not zero. *)
Theorem C61_slack : forall f f' s s', file_solvable f -> file_solvable f' -> dual f f' -> answered f (Solved_to s) -> answered f' (Solved_to s') ->
  (forall r, is_constraint f r -> answer_at s' r <> 0 -> frhs f r (frow_value f (answer_at s) r)) /\ (forall c, is_constraint f' c -> answer_at s c <> 0 -> frhs f' c (frow_value f' (answer_at s') c)).
Proof. exact (fun f f' s s' FS FS' D => dual_slack f f' FS FS' D s s'). Qed.
Print Assumptions C61_slack.
(** The values that the dual gets prove that the optimum of the program is one. *)
Theorem C61_proves : forall f f' s s', file_solvable f -> file_solvable f' -> dual f f' -> answered f (Solved_to s) -> answered f' (Solved_to s') ->
  exists d, fproves_bound f (answer_at s') d (fcost f (answer_at s)).
Proof. exact (fun f f' s s' FS FS' D => dual_proves f f' FS FS' D s s'). Qed.
Print Assumptions C61_proves.
(** They are prices: with other right-hand sides nothing is cheaper than they say. *)
Theorem C61_prices : forall f f' f2 s s' b b2 x, file_solvable f -> file_solvable f' -> dual f f' -> answered f (Solved_to s) -> answered f' (Solved_to s') -> other_rhs f f2 ->
  (forall r, is_constraint f r -> frhs f r (b r)) -> (forall r, is_constraint f r -> frhs f2 r (b2 r)) ->
  ffeasible f2 x -> fcost f (answer_at s) + expected_change f (answer_at s') b b2 <= fcost f2 x.
Proof. exact (fun f f' f2 s s' b b2 x FS FS' D => dual_sensitivity f f' FS FS' D f2 s s' b b2 x). Qed.
Print Assumptions C61_prices.
(** A minimum of 7 and a maximum of 7; a minimum without bound and a maximum without solution. *)
Example C61_case : answered cheapest_file cheapest_answer /\ answered largest_file largest_answer /\ answered no_bound_file NoBound /\ answered no_price_file NoSolution.
Proof. exact pair_answered. Qed.
Example C61_case_dual : dual cheapest_file largest_file /\ dual no_bound_file no_price_file.
Proof. exact (conj cheapest_dual no_bound_dual). Qed.
Example C61_case_solvable : file_solvable cheapest_file /\ file_solvable largest_file /\ file_solvable no_bound_file /\ file_solvable no_price_file.
Proof. exact (conj cheapest_solvable (conj largest_solvable (conj no_bound_solvable no_price_solvable))). Qed.
(** Asking for 3 X more, at the price 1: the minimum was 7, and nothing that costs less than 7 + 1 * 3 is enough now (16 is, here). *)
Example C61_case_prices : other_rhs cheapest_file dearer_file /\ ffeasible dearer_file dearer_point /\ fcost dearer_file dearer_point = q 16 1 /\
  (forall r, is_constraint cheapest_file r -> frhs cheapest_file r (cheapest_rhs r)) /\ (forall r, is_constraint cheapest_file r -> frhs dearer_file r (dearer_rhs r)) /\
  expected_change cheapest_file (answer_at largest_solution) cheapest_rhs dearer_rhs = q 3 1.
Proof. exact dearer_case. Qed.

(** ** Programs between two others (C62) *)
(** With right-hand sides between those of two programs, the outcome is not worse than the one between their outcomes:
    there is a solution if both have one, and the cost is at most the one between. *)
Theorem C62_rhs : forall t f0 f1 f a0 a1 a, 0 < t -> t < 1 -> file_solvable f0 -> file_solvable f1 -> file_solvable f -> between_rhs t f0 f1 f -> answered f0 a0 -> answered f1 a1 -> answered f a ->
  no_worse (fsense f) (outcome_of f a) (mixed t (outcome_of f0 a0) (outcome_of f1 a1)).
Proof. exact answers_between_rhs. Qed.
Print Assumptions C62_rhs.
(** With costs between those of two programs, it is not better than the one between. *)
Theorem C62_costs : forall t f0 f1 f a0 a1 a, 0 < t -> t < 1 -> file_solvable f0 -> file_solvable f1 -> file_solvable f -> between_costs t f0 f1 f -> answered f0 a0 -> answered f1 a1 -> answered f a ->
  no_worse (fsense f) (mixed t (outcome_of f0 a0) (outcome_of f1 a1)) (outcome_of f a).
Proof. exact answers_between_costs. Qed.
Print Assumptions C62_costs.
(** Half the way from 7 to 16 with half the change of a right-hand side: 10; half the way from 7 to 8 with half the change
    of a cost: 8. *)
Example C62_case : answered cheapest_file cheapest_answer /\ answered dearer_file dearer_answer /\ answered halfway_file halfway_answer /\ answered steeper_file steeper_answer /\ answered middling_file middling_answer.
Proof. exact (conj (proj1 pair_answered) mix_answered). Qed.
Example C62_case_between : between_rhs (q 1 2) cheapest_file dearer_file halfway_file /\ between_costs (q 1 2) cheapest_file steeper_file middling_file.
Proof. exact (conj halfway_between middling_between). Qed.
Example C62_case_solvable : file_solvable cheapest_file /\ file_solvable dearer_file /\ file_solvable halfway_file /\ file_solvable steeper_file /\ file_solvable middling_file.
Proof. exact (conj cheapest_solvable (conj dearer_solvable (conj halfway_solvable (conj steeper_solvable middling_solvable)))). Qed.
