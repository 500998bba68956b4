(** * Prices of constraints (C65)

    The specification is SpecPrice.v: [priced f x y] says which signs the prices [y] of the constraints have at the values
    [x].  [other_rhs] and [expected_change] are from SpecPair.v, [answered] and the order of outcomes from SpecOrder.v. *)
From Verif Require Import Examples ExGeneral ExParse ExFile ExOrder ExUnits ExPrice SpecPrice PairP PriceP.
Local Open Scope string_scope.
Local Open Scope list_scope.
Local Open Scope Qc_scope.

(** A reported optimum has prices. *)
Theorem C65_prices : forall f s, file_solvable f -> answered f (Solved_to s) -> exists y, priced f (answer_at s) y.
Proof. exact answer_priced. Qed.
Print Assumptions C65_prices.
(** Values that are feasible and have prices are optimal. *)
Theorem C65_optimal : forall f x y, file_solvable f -> ffeasible f x -> priced f x y -> foptimal f x.
Proof. exact (fun f x y FS X P => priced_optimal f (fr_columns f (fs_rules f FS)) x y P X). Qed.
Print Assumptions C65_optimal.
(** With other right-hand sides the answer is not better than the prices say. *)
Theorem C65_other_rhs : forall f f2 s y b b2 a2, file_solvable f -> file_solvable f2 -> answered f (Solved_to s) -> priced f (answer_at s) y -> other_rhs f f2 ->
  (forall r, is_constraint f r -> frhs f r (b r)) -> (forall r, is_constraint f r -> frhs f2 r (b2 r)) -> answered f2 a2 ->
  no_worse (fsense f) (Value (fcost f (answer_at s) + expected_change f y b b2)) (outcome_of f2 a2).
Proof. exact prices_hold. Qed.
Print Assumptions C65_other_rhs.
(** Another variable that costs at least what it is worth changes nothing. *)
Theorem C65_extra_column : forall c f f2 s y a2, file_solvable f -> file_solvable f2 -> extra_column c f f2 -> answered f (Solved_to s) -> priced f (answer_at s) y ->
  0 <= toward (fsense f) (beyond f2 y c) -> answered f2 a2 -> outcome_of f2 a2 = Value (fcost f (answer_at s)).
Proof. exact (fun c f f2 s y a2 FS FS2 E => not_worth c f f2 FS FS2 E s y a2). Qed.
Print Assumptions C65_extra_column.
(** The program of ExOrder.v with prices 1 and 1/2. *)
Example C65_case : file_solvable looser_file /\ answered looser_file (Solved_to looser_solution) /\ priced looser_file (answer_at looser_solution) looser_prices.
Proof. exact (conj looser_solvable (conj (proj1 (proj2 (proj2 case_answered))) looser_priced)). Qed.
(** Other right-hand sides: the prices say that the minimum is at least 5/2 + 3/2, and it is 23/4. *)
Example C65_case_rhs : file_solvable larger_file /\ answered larger_file larger_answer /\ other_rhs looser_file larger_file /\
  (forall r, is_constraint looser_file r -> frhs looser_file r (looser_rhs r)) /\ (forall r, is_constraint looser_file r -> frhs larger_file r (larger_rhs r)) /\
  expected_change looser_file looser_prices looser_rhs larger_rhs = q 3 2.
Proof. exact (conj larger_solvable (conj larger_answered larger_case)). Qed.
(** Another variable that costs 1 more than it is worth. *)
Example C65_case_column : file_solvable offered_file /\ answered offered_file offered_answer /\ extra_column "WSIX" looser_file offered_file /\ beyond offered_file looser_prices "WSIX" = q 1 1.
Proof. exact (conj offered_solvable (conj offered_answered (conj offered_extra offered_beyond))). Qed.
