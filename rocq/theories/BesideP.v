(** * Proofs: two programs in one file *)
From Verif Require Import SpecBeside TextSolveP TextPresolveP FixedP FileP MpsP UnitsP OrderP.
Local Open Scope Qc_scope.

Lemma agree_value f x y r : (forall c, In c (names_of_columns f) -> y c = x c) -> frow_value f y r = frow_value f x r.
Proof.
  intros E. unfold frow_value. f_equal. apply map_ext_in. intros [[c r'] v] I. rewrite (E c); [reflexivity|]. exact (coefficient_column f c r' v I).
Qed.
Lemma agree_feasible f x y : (forall c, In c (names_of_columns f) -> y c = x c) -> ffeasible f x -> ffeasible f y.
Proof.
  intros E [A B]. split.
  - intros k r I. rewrite (agree_value f x y r E). exact (A k r I).
  - intros c C. rewrite (E c C). exact (B c C).
Qed.
Lemma agree_cost f x y : (forall c, In c (names_of_columns f) -> y c = x c) -> fcost f y = fcost f x.
Proof. exact (agree_value f x y (cost_row f)). Qed.
Lemma total_app l l' : total (l ++ l') = total l + total l'.
Proof. unfold total. induction l as [|v l IH]; cbn [app fold_right]; [ring|]. rewrite IH. ring. Qed.
Lemma total_permutation l l' : Permutation l l' -> total l = total l'.
Proof. unfold total. induction 1; cbn [fold_right]; [reflexivity|congruence|ring|congruence]. Qed.
Lemma beside_sym f1 f2 f : beside f1 f2 f -> beside f2 f1 f.
Proof.
  intros [S1 S2 C1 C2 RD CD RR CC CO RH RA BO]. constructor; try assumption.
  - intros k1 k2 r A B. exact (RD k2 k1 r B A).
  - intros c A B. exact (CD c B A).
  - intros k r. rewrite RR. tauto.
  - intros c. rewrite CC. tauto.
  - rewrite Permutation_app_comm. assumption.
  - intros r b. rewrite RH. tauto.
  - intros r v. rewrite RA. tauto.
  - intros t c. rewrite BO. tauto.
Qed.

(** ** One of the two *)
Section One.
Variables f1 f2 f : file.
Hypothesis R1 : file_rules f1.
Hypothesis R2 : file_rules f2.
Hypothesis R : file_rules f.
Hypothesis B : beside f1 f2 f.
(** a row of the first one is none of the second one *)
Lemma other_row k r : In (Some k, r) (f_rows f1) -> ~ In r (names_of_rows f2).
Proof using R2 R B.
  intros I J. apply in_map_iff in J. destruct J as ([k' r'] & E & J). cbn in E. subst r'. destruct k' as [k'|]; [exact (bs_rows_differ _ _ _ B k k' r I J)|].
  destruct (fr_cost f2 R2) as (c & C & U). pose proof (cost_row_is f2 c C U) as E. rewrite (bs_cost2 _ _ _ B), <- (U _ J) in E.
  apply (constraint_not_cost f k r R); [|now symmetry]. apply (bs_rows _ _ _ B). now left.
Qed.
Lemma own_value k r x : In (Some k, r) (f_rows f1) -> frow_value f x r = frow_value f1 x r.
Proof using R2 R B.
  intros I. unfold frow_value. rewrite <- (total_permutation _ _ (Permutation_map _ (bs_coefficients _ _ _ B))), map_app, total_app.
  assert (Z : forall l, (forall c r' v, In (c, r', v) l -> r' <> r) -> total (map (fun '(c, r', v) => if String.eqb r' r then v * x c else 0) l) = 0).
  { induction l as [|[[c r'] v] l IH]; intros H; [reflexivity|]. unfold total in *. cbn [map fold_right]. rewrite IH by (intros c' r'' v' I'; exact (H c' r'' v' (or_intror I'))).
    destruct (String.eqb_spec r' r) as [E|_]; [elim (H c r' v (or_introl eq_refl) E)|ring]. }
  rewrite (Z (coefficients f2)); [ring|]. intros c r' v J ->. apply (other_row k r I). exact (fr_coefficient_rows f2 R2 c r v J).
Qed.
Lemma own_rhs k r b : In (Some k, r) (f_rows f1) -> frhs f r b <-> frhs f1 r b.
Proof using R2 R B.
  intros I. assert (E : forall b, (exists g, In (g, r, b) (vector_values (f_rhs f))) <-> exists g, In (g, r, b) (vector_values (f_rhs f1))).
  { intros b'. rewrite (bs_rhs _ _ _ B). split; [|now left]. intros [H|[g H]]; [exact H|]. elim (other_row k r I). apply constraint_row_name. exact (fr_rhs_rows f2 R2 g r b' H). }
  unfold frhs. rewrite E. split; (intros [H|[Z N]]; [now left|right; split; [exact Z|]]); intros g b' H.
  - destruct (proj2 (E b') (ex_intro _ g H)) as [g' H']. exact (N g' b' H').
  - destruct (proj1 (E b') (ex_intro _ g H)) as [g' H']. exact (N g' b' H').
Qed.
Lemma own_range k r v : In (Some k, r) (f_rows f1) -> frange f r v <-> frange f1 r v.
Proof using R2 R B.
  intros I. rewrite (bs_ranges _ _ _ B). split; [|now left]. intros [H|[g H]]; [exact H|]. elim (other_row k r I). apply constraint_row_name. exact (fr_range_rows f2 R2 g r v H).
Qed.
Lemma own_holds k r v : In (Some k, r) (f_rows f1) -> frow_holds f k r v <-> frow_holds f1 k r v.
Proof using R2 R B.
  intros I. unfold frow_holds. split; intros H b Hb.
  - destruct (H b (proj2 (own_rhs k r b I) Hb)) as [P Q]. split.
    + intros N. apply P. intros w W. exact (N w (proj1 (own_range k r w I) W)).
    + intros w W. apply Q. exact (proj2 (own_range k r w I) W).
  - destruct (H b (proj1 (own_rhs k r b I) Hb)) as [P Q]. split.
    + intros N. apply P. intros w W. exact (N w (proj2 (own_range k r w I) W)).
    + intros w W. apply Q. exact (proj1 (own_range k r w I) W).
Qed.
Lemma own_allowed c v : In c (names_of_columns f1) -> fallowed f c v <-> fallowed f1 c v.
Proof using R2 B.
  clear R. intros C. assert (E : forall t, (exists g, In (t, g, c) (f_bounds f)) <-> exists g, In (t, g, c) (f_bounds f1)).
  { intros t. rewrite (bs_bounds _ _ _ B). split; [|now left]. intros [H|[g H]]; [exact H|]. elim (bs_columns_differ _ _ _ B c C). exact (fr_bound_columns f2 R2 t g c H). }
  unfold fallowed. split; intros [A L]; split.
  - intros t g H. destruct (proj2 (E t) (ex_intro _ g H)) as [g' H']. exact (A t g' H').
  - intros H. apply L. intros t g I. destruct (proj1 (E t) (ex_intro _ g I)) as [g' I']. exact (H t g' I').
  - intros t g H. destruct (proj1 (E t) (ex_intro _ g H)) as [g' H']. exact (A t g' H').
  - intros H. apply L. intros t g I. destruct (proj2 (E t) (ex_intro _ g I)) as [g' I']. exact (H t g' I').
Qed.
Lemma own_feasible x : ffeasible f x -> ffeasible f1 x.
Proof using R2 R B.
  intros [P Q]. split.
  - intros k r I. apply (own_holds k r _ I). rewrite <- (own_value k r x I). apply P. apply (bs_rows _ _ _ B). now left.
  - intros c C. apply (own_allowed c _ C), Q. apply (bs_columns _ _ _ B). now left.
Qed.
End One.

(** ** Both *)
Section Both.
Variables f1 f2 f : file.
Hypothesis R1 : file_rules f1.
Hypothesis R2 : file_rules f2.
Hypothesis R : file_rules f.
Hypothesis B : beside f1 f2 f.
Let B' := beside_sym _ _ _ B.
Lemma both_feasible x : ffeasible f x <-> ffeasible f1 x /\ ffeasible f2 x.
Proof using R1 R2 R B.
  split; [intros X; split; [exact (own_feasible f1 f2 f R2 R B x X)|exact (own_feasible f2 f1 f R1 R B' x X)]|]. intros [[P1 Q1] [P2 Q2]]. split.
  - intros k r I. apply (bs_rows _ _ _ B) in I. destruct I as [I|I].
    + rewrite (own_value f1 f2 f R2 R B k r x I). apply (own_holds f1 f2 f R2 R B k r _ I). exact (P1 k r I).
    + rewrite (own_value f2 f1 f R1 R B' k r x I). apply (own_holds f2 f1 f R1 R B' k r _ I). exact (P2 k r I).
  - intros c C. apply (bs_columns _ _ _ B) in C. destruct C as [C|C].
    + apply (own_allowed f1 f2 f R2 B c _ C). exact (Q1 c C).
    + apply (own_allowed f2 f1 f R1 B' c _ C). exact (Q2 c C).
Qed.
Lemma both_cost x : fcost f x = fcost f1 x + fcost f2 x.
Proof using B.
  clear R1 R2 R. unfold fcost. rewrite (bs_cost1 _ _ _ B), (bs_cost2 _ _ _ B). unfold frow_value. now rewrite <- (total_permutation _ _ (Permutation_map _ (bs_coefficients _ _ _ B))), map_app, total_app.
Qed.
(** values for the columns of both *)
Definition glued (x1 x2 : valuation) : valuation := fun c => if existsb (String.eqb c) (names_of_columns f1) then x1 c else x2 c.
Lemma glued_first x1 x2 c : In c (names_of_columns f1) -> glued x1 x2 c = x1 c.
Proof using. intros C. unfold glued. destruct (existsb _ _) eqn:E; [reflexivity|]. exfalso. assert (H : existsb (String.eqb c) (names_of_columns f1) = true) by (apply existsb_exists; exists c; split; [exact C|apply String.eqb_refl]). congruence. Qed.
Lemma glued_second x1 x2 c : In c (names_of_columns f2) -> glued x1 x2 c = x2 c.
Proof using B. clear R1 R2 R. intros C. unfold glued. destruct (existsb _ _) eqn:E; [|reflexivity]. exfalso. apply existsb_exists in E. destruct E as (c' & C' & E). apply String.eqb_eq in E. subst c'. exact (bs_columns_differ _ _ _ B c C' C). Qed.
Lemma glued_feasible x1 x2 : ffeasible f1 x1 -> ffeasible f2 x2 -> ffeasible f (glued x1 x2) /\ fcost f (glued x1 x2) = fcost f1 x1 + fcost f2 x2.
Proof using R1 R2 R B.
  intros X1 X2. rewrite both_feasible, both_cost, (agree_cost f1 x1 _ (glued_first x1 x2)), (agree_cost f2 x2 _ (glued_second x1 x2)). split; [|reflexivity]. split.
  - exact (agree_feasible f1 x1 _ (glued_first x1 x2) X1).
  - exact (agree_feasible f2 x2 _ (glued_second x1 x2) X2).
Qed.
Lemma both_optimal x : foptimal f x <-> foptimal f1 x /\ foptimal f2 x.
Proof using R1 R2 R B.
  pose proof (bs_sense1 _ _ _ B) as S1. pose proof (bs_sense2 _ _ _ B) as S2. split.
  - intros [X O]. apply both_feasible in X. destruct X as [X1 X2]. split; (split; [assumption|]); intros y Y.
    + destruct (glued_feasible y x Y X2) as [G C]. specialize (O _ G). rewrite C, both_cost in O. rewrite S1. destruct (fsense f); cbn in *; qlra.
    + destruct (glued_feasible x y X1 Y) as [G C]. specialize (O _ G). rewrite C, both_cost in O. rewrite S2. destruct (fsense f); cbn in *; qlra.
  - intros [[X1 O1] [X2 O2]]. split; [now apply both_feasible|]. intros y Y. apply both_feasible in Y. destruct Y as [Y1 Y2]. specialize (O1 y Y1). specialize (O2 y Y2). rewrite S1 in O1. rewrite S2 in O2.
    rewrite !both_cost. destruct (fsense f); cbn in *; qlra.
Qed.
(** an unbounded one makes both unbounded *)
Lemma first_unbounded x2 : funbounded f1 -> ffeasible f2 x2 -> funbounded f.
Proof using R1 R2 R B.
  intros [[x X] U] X2. split; [exists (glued x x2); now apply glued_feasible|]. intros bound. destruct (U (bound - fcost f2 x2)) as (y & Y & L). exists (glued y x2). destruct (glued_feasible y x2 Y X2) as [G C]. split; [exact G|].
  rewrite C. rewrite (bs_sense1 _ _ _ B) in L. destruct (fsense f); qlra.
Qed.
End Both.

(** ** Answers *)
Lemma optimal_same f x y : foptimal f x -> foptimal f y -> fcost f x = fcost f y.
Proof. intros [X O] [Y P]. apply (better_antisym (fsense f)); [now apply O|now apply P]. Qed.
Lemma optimal_bounded f x : foptimal f x -> ~ funbounded f.
Proof. intros [X O] [_ U]. destruct (U (fcost f x)) as (y & Y & L). specialize (O y Y). destruct (fsense f); cbn in O; qlra. Qed.
Lemma together_outcome f1 f2 f a1 a2 a : file_solvable f1 -> file_solvable f2 -> file_solvable f -> beside f1 f2 f -> answered f1 a1 -> answered f2 a2 -> answered f a ->
  outcome_of f a = together (outcome_of f1 a1) (outcome_of f2 a2).
Proof.
  intros F1 F2 F B A1 A2 A. pose proof (fs_rules _ F1) as R1. pose proof (fs_rules _ F2) as R2. pose proof (fs_rules _ F) as R.
  apply (answered_right _ _ F1) in A1. apply (answered_right _ _ F2) in A2. apply (answered_right _ _ F) in A. pose proof (beside_sym _ _ _ B) as B'.
  assert (I : forall x, ffeasible f x -> ffeasible f1 x /\ ffeasible f2 x) by (intros x X; now apply (both_feasible f1 f2 f R1 R2 R B)).
  assert (N1 : (forall x, ~ ffeasible f1 x) -> outcome_of f a = Infeasible).
  { intros N. destruct a as [s| |]; [|reflexivity|]; exfalso; [exact (N _ (proj1 (I _ (proj1 (proj1 A)))))|]. destruct A as [[x X] _]. exact (N x (proj1 (I x X))). }
  assert (N2 : (forall x, ~ ffeasible f2 x) -> outcome_of f a = Infeasible).
  { intros N. destruct a as [s| |]; [|reflexivity|]; exfalso; [exact (N _ (proj2 (I _ (proj1 (proj1 A)))))|]. destruct A as [[x X] _]. exact (N x (proj2 (I x X))). }
  assert (U : funbounded f -> outcome_of f a = Unbounded).
  { intros H. destruct a as [s| |]; [| |reflexivity]; exfalso; [exact (optimal_bounded f _ (proj1 A) H)|]. destruct H as [[x X] _]. exact (A x X). }
  destruct a1 as [s1| |], a2 as [s2| |]; cbn [right] in A1, A2; cbn [outcome_of together]; try (now apply N1); try (now apply N2).
  - set (x := glued f1 (answer_at s1) (answer_at s2)).
    assert (O : foptimal f x /\ fcost f x = fcost f1 (answer_at s1) + fcost f2 (answer_at s2)).
    { destruct A1 as [[X1 O1] _], A2 as [[X2 O2] _]. destruct (glued_feasible f1 f2 f R1 R2 R B _ _ X1 X2) as [G C]. fold x in G, C. split; [|exact C]. split; [exact G|].
      intros y Y. destruct (I y Y) as [Y1 Y2]. specialize (O1 y Y1). specialize (O2 y Y2). rewrite C, (both_cost f1 f2 f B), <- (bs_sense1 _ _ _ B). rewrite (bs_sense2 _ _ _ B), <- (bs_sense1 _ _ _ B) in O2. destruct (fsense f1); cbn in *; qlra. }
    destruct O as [O C]. destruct a as [s| |]; cbn [right] in A; cbn [outcome_of].
    + f_equal. rewrite <- C. exact (optimal_same f _ _ (proj1 A) O).
    + elim (A x (proj1 O)).
    + elim (optimal_bounded f x O A).
  - apply U. exact (first_unbounded f2 f1 f R2 R1 R B' _ A2 (proj1 (proj1 A1))).
  - apply U. exact (first_unbounded f1 f2 f R1 R2 R B _ A1 (proj1 (proj1 A2))).
  - apply U. destruct A2 as [[x2 X2] _]. exact (first_unbounded f1 f2 f R1 R2 R B _ A1 X2).
Qed.
Lemma together_optimal f1 f2 f s : file_rules f1 -> file_rules f2 -> file_solvable f -> beside f1 f2 f -> answered f (Solved_to s) -> foptimal f1 (answer_at s) /\ foptimal f2 (answer_at s).
Proof. intros R1 R2 F B A. apply (answered_right _ _ F) in A. apply (both_optimal f1 f2 f R1 R2 (fs_rules _ F) B). exact (proj1 A). Qed.
Lemma together_values f1 f2 f s1 s : file_solvable f1 -> file_rules f2 -> file_solvable f -> beside f1 f2 f -> answered f1 (Solved_to s1) -> answered f (Solved_to s) -> only_optimum f1 ->
  forall c, In c (names_of_columns f1) -> answer_at s c = answer_at s1 c.
Proof.
  intros F1 R2 F B A1 A U c C. apply (answered_right _ _ F1) in A1. destruct (together_optimal f1 f2 f s (fs_rules _ F1) R2 F B A) as [O _]. exact (U _ _ O (proj1 A1) c C).
Qed.
