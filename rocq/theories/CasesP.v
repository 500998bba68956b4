(** * Proofs: solving a program by cases *)
From Verif Require Import SpecCases TextSolveP FixedP FileP MpsP UnitsP OrderP BesideP.
Local Open Scope Qc_scope.

Lemma sub_unbounded f f1 : fsense f1 = fsense f -> (forall x, fcost f1 x = fcost f x) -> (forall x, ffeasible f1 x -> ffeasible f x) -> funbounded f1 -> funbounded f.
Proof.
  intros S C I [[x X] U]. split; [exists x; now apply I|]. intros bound. destruct (U bound) as (y & Y & L). exists y. split; [now apply I|]. now rewrite <- S, <- C.
Qed.
Lemma no_solutions f a : right f a -> (forall x, ~ ffeasible f x) -> outcome_of f a = Infeasible.
Proof. intros R N. destruct a as [s| |]; cbn in *; [elim (N _ (proj1 (proj1 R)))|reflexivity|]. destruct R as [[x X] _]. elim (N x X). Qed.
Lemma unbounded_outcome f a : right f a -> funbounded f -> outcome_of f a = Unbounded.
Proof. intros R U. destruct a as [s| |]; cbn [right outcome_of] in *; [elim (optimal_bounded f _ (proj1 R) U)| |reflexivity]. destruct U as [[x X] _]. elim (R x X). Qed.
Lemma optimal_outcome f a x : right f a -> foptimal f x -> outcome_of f a = Value (fcost f x).
Proof.
  intros R O. destruct a as [s| |]; cbn [right outcome_of] in *; [f_equal; exact (optimal_same f _ _ (proj1 R) O)|elim (R x (proj1 O))|elim (optimal_bounded f x O R)].
Qed.
(** the same solutions and costs *)
Lemma same_program f f1 a a1 : fsense f1 = fsense f -> (forall x, fcost f1 x = fcost f x) -> (forall x, ffeasible f1 x <-> ffeasible f x) -> right f a -> right f1 a1 -> outcome_of f a = outcome_of f1 a1.
Proof.
  intros S C I R R1. destruct a1 as [s| |].
  - destruct R1 as [[X O] _]. cbn [outcome_of]. rewrite C. apply (optimal_outcome f a _ R). split; [now apply I|]. intros y Y. rewrite <- S, <- !C. apply O. now apply I.
  - apply (no_solutions f a R). intros x X. apply (R1 x). now apply I.
  - apply (unbounded_outcome f a R). apply (sub_unbounded f f1 S C); [apply I|exact R1].
Qed.
Lemma cases_comm f f1 f2 : two_cases f f1 f2 -> two_cases f f2 f1.
Proof. intros [S1 S2 C1 C2 I]. constructor; try assumption. intros x. rewrite (I x). tauto. Qed.
(** ** The better one *)
Lemma better_optimal f f1 f2 x1 x2 : two_cases f f1 f2 -> foptimal f1 x1 -> foptimal f2 x2 -> better (fsense f) (fcost f x1) (fcost f x2) -> foptimal f x1.
Proof.
  intros T [X1 O1] [X2 O2] B. split; [apply (tc_solutions _ _ _ T); now left|]. intros y Y. apply (tc_solutions _ _ _ T) in Y. destruct Y as [Y|Y].
  - specialize (O1 y Y). now rewrite (tc_sense1 _ _ _ T), !(tc_cost1 _ _ _ T) in O1.
  - specialize (O2 y Y). rewrite (tc_sense2 _ _ _ T), !(tc_cost2 _ _ _ T) in O2. destruct (fsense f); cbn in *; qlra.
Qed.
Lemma cases_outcome f f1 f2 a a1 a2 : file_solvable f -> file_solvable f1 -> file_solvable f2 -> two_cases f f1 f2 -> answered f a -> answered f1 a1 -> answered f2 a2 ->
  outcome_of f a = best (fsense f) (outcome_of f1 a1) (outcome_of f2 a2).
Proof.
  intros FS FS1 FS2 T A A1 A2. apply (answered_right _ _ FS) in A. apply (answered_right _ _ FS1) in A1. apply (answered_right _ _ FS2) in A2. clear FS FS1 FS2.
  assert (N : forall g1 g2 b1 b2, two_cases f g1 g2 -> right g1 b1 -> right g2 b2 -> outcome_of g1 b1 = Infeasible -> outcome_of f a = outcome_of g2 b2).
  { intros g1 g2 b1 b2 T' R1 R2 E. apply (same_program f g2 a b2 (tc_sense2 _ _ _ T') (tc_cost2 _ _ _ T')); [|exact A|exact R2]. intros x. rewrite (tc_solutions _ _ _ T'). split; [now right|]. intros [X|X]; [|exact X].
    destruct b1; try discriminate E. elim (R1 x X). }
  assert (U : forall g1 g2 b1, two_cases f g1 g2 -> right g1 b1 -> outcome_of g1 b1 = Unbounded -> outcome_of f a = Unbounded).
  { intros g1 g2 b1 T' R1 E. destruct b1; try discriminate E. apply (unbounded_outcome f a A). apply (sub_unbounded f g1 (tc_sense1 _ _ _ T') (tc_cost1 _ _ _ T')); [|exact R1]. intros x X. apply (tc_solutions _ _ _ T'). now left. }
  pose proof (cases_comm _ _ _ T) as T'.
  destruct a1 as [s1| |].
  2:{ rewrite (N f1 f2 NoSolution a2 T A1 A2 eq_refl). now destruct (outcome_of f2 a2). }
  2:{ rewrite (U f1 f2 NoBound T A1 eq_refl). now destruct (outcome_of f2 a2). }
  destruct a2 as [s2| |].
  2:{ rewrite (N f2 f1 NoSolution _ T' A2 A1 eq_refl). reflexivity. }
  2:{ rewrite (U f2 f1 NoBound T' A2 eq_refl). reflexivity. }
  cbn [outcome_of best]. destruct A1 as [O1 _], A2 as [O2 _].
  assert (P : forall x1 x2, (foptimal f1 x1 /\ foptimal f2 x2) -> better (fsense f) (fcost f x1) (fcost f x2) -> outcome_of f a = Value (fcost f x1)).
  { intros x1 x2 [P1 P2] B. apply (optimal_outcome f a x1 A). exact (better_optimal f f1 f2 x1 x2 T P1 P2 B). }
  assert (P' : forall x1 x2, (foptimal f1 x1 /\ foptimal f2 x2) -> better (fsense f) (fcost f x2) (fcost f x1) -> outcome_of f a = Value (fcost f x2)).
  { intros x1 x2 [P1 P2] B. apply (optimal_outcome f a x2 A). exact (better_optimal f f2 f1 x2 x1 T' P2 P1 B). }
  rewrite (tc_cost1 _ _ _ T), (tc_cost2 _ _ _ T). destruct (fsense f); unfold qmin, qmax.
  - destruct (qltb (fcost f (answer_at s2)) (fcost f (answer_at s1))) eqn:E; qb; [apply (P' _ _ (conj O1 O2))|apply (P _ _ (conj O1 O2))]; cbn; qlra.
  - destruct (qltb (fcost f (answer_at s1)) (fcost f (answer_at s2))) eqn:E; qb; [apply (P' _ _ (conj O1 O2))|apply (P _ _ (conj O1 O2))]; cbn; qlra.
Qed.
(** a constraint that the optimum meets *)
Lemma kept_outcome f f' s a' : file_solvable f -> file_solvable f' -> relaxed f' f -> answered f (Solved_to s) -> ffeasible f' (answer_at s) -> answered f' a' -> outcome_of f' a' = Value (fcost f (answer_at s)).
Proof.
  intros FS FS' X A F A'. apply (answered_right _ _ FS) in A. apply (answered_right _ _ FS') in A'. destruct A as [[_ O] _].
  assert (C : forall x, fcost f' x = fcost f x) by (intros x; exact (eq_sym (relaxed_cost f' f (fs_rules _ FS) X x))).
  rewrite <- C. apply (optimal_outcome f' a' _ A'). split; [exact F|]. intros y Y. rewrite !C, <- (rx_sense _ _ X). apply O. exact (relaxed_feasible f' f X y Y).
Qed.
(** the values of the better case *)
Lemma cases_values f f1 f2 s1 a2 : file_solvable f1 -> file_solvable f2 -> two_cases f f1 f2 -> answered f1 (Solved_to s1) -> answered f2 a2 -> no_worse (fsense f) (Value (fcost f1 (answer_at s1))) (outcome_of f2 a2) -> foptimal f (answer_at s1).
Proof.
  intros FS1 FS2 T A1 A2 L. apply (answered_right _ _ FS1) in A1. apply (answered_right _ _ FS2) in A2. destruct A1 as [O1 _]. destruct a2 as [s2| |]; [|clear L|destruct L].
  - destruct A2 as [O2 _]. apply (better_optimal f f1 f2 _ _ T O1 O2). cbn [outcome_of no_worse] in L. now rewrite (tc_cost1 _ _ _ T), (tc_cost2 _ _ _ T) in L.
  - destruct O1 as [X1 O1]. split; [apply (tc_solutions _ _ _ T); now left|]. intros y Y. apply (tc_solutions _ _ _ T) in Y. destruct Y as [Y|Y]; [|elim (A2 y Y)]. specialize (O1 y Y). now rewrite (tc_sense1 _ _ _ T), !(tc_cost1 _ _ _ T) in O1.
Qed.
(** ** Any number of cases *)
(** the outcome of choosing the best among [S] *)
Definition outcome_among (d : direction) (cost : valuation -> Qc) (S : valuation -> Prop) (o : outcome) : Prop :=
  match o with
  | Infeasible => forall x, ~ S x
  | Value v => (exists x, S x /\ cost x = v) /\ forall y, S y -> better d v (cost y)
  | Unbounded => (exists x, S x) /\ forall bound, exists y, S y /\ match d with Minimize => cost y < bound | Maximize => bound < cost y end
  end.
Lemma among_same d cost S S' o : (forall x, S x <-> S' x) -> outcome_among d cost S o -> outcome_among d cost S' o.
Proof.
  intros E. destruct o as [|v|]; cbn.
  - intros H x X. apply (H x). now apply E.
  - intros [(x & X & C) H]. split; [exists x; split; [now apply E|exact C]|intros y Y; apply H; now apply E].
  - intros [[x X] H]. split; [exists x; now apply E|]. intros b. destruct (H b) as (y & Y & L). exists y. split; [now apply E|exact L].
Qed.
Lemma among_unique d cost S o o' : outcome_among d cost S o -> outcome_among d cost S o' -> o = o'.
Proof.
  assert (B : forall v, ~ (outcome_among d cost S (Value v) /\ outcome_among d cost S Unbounded)).
  { intros v [[_ H] [_ U]]. destruct (U v) as (y & Y & L). specialize (H y Y). destruct d; cbn in H; qlra. }
  destruct o as [|v|], o' as [|v'|]; try reflexivity; intros H H'.
  - destruct H' as [(x & X & _) _]. elim (H x X).
  - destruct H' as [[x X] _]. elim (H x X).
  - destruct H as [(x & X & _) _]. elim (H' x X).
  - destruct H as [(x & X & C) H], H' as [(x' & X' & C') H']. f_equal. apply (better_antisym d); [rewrite <- C'; now apply H|rewrite <- C; now apply H'].
  - elim (B v (conj H H')).
  - destruct H as [[x X] _]. elim (H' x X).
  - elim (B v' (conj H' H)).
Qed.
Lemma among_either d cost S1 S2 o1 o2 : outcome_among d cost S1 o1 -> outcome_among d cost S2 o2 -> outcome_among d cost (fun x => S1 x \/ S2 x) (best d o1 o2).
Proof.
  assert (N1 : forall T1 T2 o, (forall x, ~ T1 x) -> outcome_among d cost T2 o -> outcome_among d cost (fun x => T1 x \/ T2 x) o).
  { intros T1 T2 o N H. apply (among_same d cost T2); [|exact H]. intros x. split; [now right|]. intros [X|X]; [elim (N x X)|exact X]. }
  assert (N2 : forall T1 T2 o, (forall x, ~ T2 x) -> outcome_among d cost T1 o -> outcome_among d cost (fun x => T1 x \/ T2 x) o).
  { intros T1 T2 o N H. apply (among_same d cost T1); [|exact H]. intros x. split; [now left|]. intros [X|X]; [exact X|elim (N x X)]. }
  assert (U1 : outcome_among d cost S1 Unbounded -> outcome_among d cost (fun x => S1 x \/ S2 x) Unbounded).
  { intros [[x X] H]. split; [exists x; now left|]. intros b. destruct (H b) as (y & Y & L). exists y. split; [now left|exact L]. }
  assert (U2 : outcome_among d cost S2 Unbounded -> outcome_among d cost (fun x => S1 x \/ S2 x) Unbounded).
  { intros [[x X] H]. split; [exists x; now right|]. intros b. destruct (H b) as (y & Y & L). exists y. split; [now right|exact L]. }
  intros H1 H2. destruct o1 as [|v1|]; [now destruct o2; apply (N1 S1 S2)| |now destruct o2; apply U1].
  destruct o2 as [|v2|]; [now apply (N2 S1 S2)| |now apply U2].
  destruct H1 as [(x1 & X1 & C1) H1], H2 as [(x2 & X2 & C2) H2].
  assert (P1 : better d v1 v2 -> outcome_among d cost (fun x => S1 x \/ S2 x) (Value v1)).
  { intros L. split; [exists x1; split; [now left|exact C1]|]. intros y [Y|Y]; [now apply H1|]. apply (better_trans d v1 v2); [exact L|now apply H2]. }
  assert (P2 : better d v2 v1 -> outcome_among d cost (fun x => S1 x \/ S2 x) (Value v2)).
  { intros L. split; [exists x2; split; [now right|exact C2]|]. intros y [Y|Y]; [|now apply H2]. apply (better_trans d v2 v1); [exact L|now apply H1]. }
  cbn [best]. destruct d; unfold qmin, qmax.
  - destruct (qltb v2 v1) eqn:E; qb; [apply P2|apply P1]; cbn; qlra.
  - destruct (qltb v1 v2) eqn:E; qb; [apply P2|apply P1]; cbn; qlra.
Qed.
Lemma among_right f a : right f a -> outcome_among (fsense f) (fcost f) (ffeasible f) (outcome_of f a).
Proof. destruct a as [s| |]; cbn; [|auto..]. intros [[X O] _]. split; [exists (answer_at s); now split|exact O]. Qed.
Lemma among_cost d cost cost' S o : (forall x, cost x = cost' x) -> outcome_among d cost S o -> outcome_among d cost' S o.
Proof.
  intros E. destruct o as [|v|]; cbn; [auto|..].
  - intros [(x & X & C) H]. split; [exists x; split; [exact X|now rewrite <- E]|]. intros y Y. rewrite <- E. now apply H.
  - intros [X H]. split; [exact X|]. intros b. destruct (H b) as (y & Y & L). exists y. split; [exact Y|now rewrite <- E].
Qed.
Lemma many_outcome f fs a l : file_solvable f -> Forall file_solvable fs -> all_cases f fs -> answered f a -> Forall2 answered fs l -> outcome_of f a = best_of (fsense f) fs l.
Proof.
  intros FS FSs [S C I] A As. apply (answered_right _ _ FS) in A. apply among_right in A. apply (among_unique _ _ _ _ _ A).
  apply (among_same _ _ (fun x => exists g, In g fs /\ ffeasible g x)); [intros x; symmetry; apply I|]. clear A I FS. induction As as [|g b fs l G As IH].
  - intros x (g & [] & _).
  - inversion FSs as [|? ? FG FSs']; subst. apply (answered_right _ _ FG) in G. apply among_right in G.
    apply (among_same _ _ (fun x => ffeasible g x \/ exists g', In g' fs /\ ffeasible g' x)).
    + intros x. split; [intros [X|(g' & I & X)]; [exists g|exists g']; (split; [now (left + right)|exact X])|]. intros (g' & [<-|I] & X); [now left|right; now exists g'].
    + unfold best_of. cbn [combine map fold_right]. apply among_either; [|apply IH; [exact FSs'|intros g' I; apply S; now right|intros g' x I; apply C; now right]].
      rewrite (S g (or_introl eq_refl)) in G. apply (among_cost _ (fcost g)); [|exact G]. intros x. apply C. now left.
Qed.
(** the values of the best case *)
Lemma many_values f fs l g s : file_solvable f -> Forall file_solvable fs -> all_cases f fs -> Forall2 answered fs l -> In (g, Solved_to s) (combine fs l) ->
  (forall g' a', In (g', a') (combine fs l) -> no_worse (fsense f) (Value (fcost g (answer_at s))) (outcome_of g' a')) -> foptimal f (answer_at s).
Proof.
  intros FS FSs [S C I] As In0 B.
  assert (R : forall g' a', In (g', a') (combine fs l) -> In g' fs /\ right g' a').
  { clear - FSs As. induction As as [|h b fs l G As IH]; [intros ? ? []|]. inversion FSs; subst. intros g' a' [E|E]; [injection E as <- <-; split; [now left|now apply answered_right]|]. destruct (IH H2 g' a' E). split; [now right|assumption]. }
  destruct (R _ _ In0) as [Ig [[X _] _]]. split; [apply I; now exists g|]. intros y Y. apply I in Y. destruct Y as (g' & Ig' & Y).
  assert (P : exists a', In (g', a') (combine fs l)).
  { clear - As Ig'. induction As as [|h b fs l G As IH]; [destruct Ig'|]. destruct Ig' as [->|J]; [exists b; now left|]. destruct (IH J) as [a' Q]. exists a'. now right. }
  destruct P as [a' P]. specialize (B _ _ P). destruct (R _ _ P) as [_ R']. rewrite <- (C g _ Ig), <- (C g' y Ig'). destruct a' as [s'| |]; cbn [outcome_of no_worse] in B; [|elim (R' y Y)|destruct B].
  destruct R' as [[_ O'] _]. specialize (O' y Y). rewrite (S g' Ig') in O'. exact (better_trans _ _ _ _ B O').
Qed.
