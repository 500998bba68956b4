(** * Proofs: other formulations of a program *)
From Verif Require Import SpecReform TextSolveP FixedP FileP MpsP UnitsP OrderP BesideP PairP CasesP.
Local Open Scope Qc_scope.

(** both ways *)
Lemma optimal_carried f f2 (back : valuation -> valuation) : dominates f2 f -> (forall x, ffeasible f2 x -> ffeasible f (back x) /\ fcost f (back x) = fcost f2 x) -> forall x, foptimal f2 x -> foptimal f (back x).
Proof.
  intros [S D] B x [X O]. destruct (B x X) as [X' C]. split; [exact X'|]. intros y Y. rewrite C. destruct (D y Y) as (y' & Y' & L). apply (better_trans _ _ (fcost f2 y')); [|exact L]. rewrite <- S. exact (O y' Y').
Qed.
Lemma back_dominates f f2 (back : valuation -> valuation) : fsense f2 = fsense f -> (forall x, ffeasible f2 x -> ffeasible f (back x) /\ fcost f (back x) = fcost f2 x) -> dominates f f2.
Proof. intros S B. split; [now symmetry|]. intros x X. destruct (B x X) as [Y C]. exists (back x). split; [exact Y|]. rewrite C. apply better_refl. Qed.
Lemma some_rhs f r : exists b, frhs f r b.
Proof.
  destruct (find (fun '(_, r', _) => String.eqb r' r) (vector_values (f_rhs f))) as [[[g r'] b]|] eqn:E.
  - apply find_some in E. destruct E as [I E]. apply String.eqb_eq in E. subst r'. exists b. left. now exists g.
  - exists 0. right. split; [reflexivity|]. intros g b I. apply (find_none _ _ E) in I. cbn in I. now rewrite String.eqb_refl in I.
Qed.

(** ** Slack *)
Section Slack.
Variables (k : relation_kind) (r c : string) (f f2 : file).
Hypothesis FS : file_solvable f.
Hypothesis FS2 : file_solvable f2.
Hypothesis W : with_slack k r c f f2.
Let sign : Qc := match k with KGreater => - (1) | _ => 1 end.
Lemma sign_sign : sign * sign = 1.
Proof. unfold sign. destruct k; ring. Qed.
Lemma slack_value x r' : frow_value f2 x r' = frow_value f x r' + (if String.eqb r' r then sign * x c else 0).
Proof using W.
  unfold frow_value. rewrite <- (total_permutation _ _ (Permutation_map _ (sk_coefficients _ _ _ _ _ W))). cbn [map]. unfold total at 1. cbn [fold_right]. fold (total (map (fun '(c0, r'0, v) => if String.eqb r'0 r' then v * x c0 else 0) (coefficients f))).
  rewrite (String.eqb_sym r r'). fold sign. destruct (String.eqb r' r); ring.
Qed.
Lemma slack_rows k' r' : In (k', r') (f_rows f2) <-> (r' = r /\ k' = Some KEqual) \/ (r' <> r /\ In (k', r') (f_rows f)).
Proof using W.
  rewrite (sk_rows _ _ _ _ _ W), in_map_iff. split.
  - intros ([k0 r0] & E & I). destruct (String.eqb_spec r0 r) as [Q|N]; injection E as E1 E2; [left|right]; split; congruence.
  - intros [[-> ->]|[N I]].
    + exists (Some k, r). rewrite String.eqb_refl. split; [reflexivity|exact (sk_row _ _ _ _ _ W)].
    + exists (k', r'). apply String.eqb_neq in N. rewrite N. now split.
Qed.
Lemma cost_differs : cost_row f <> r.
Proof using FS W. intros E. exact (constraint_not_cost f k r (fs_rules _ FS) (sk_row _ _ _ _ _ W) (eq_sym E)). Qed.
Lemma slack_cost_row : cost_row f2 = cost_row f.
Proof using FS FS2 W.
  destruct (fr_cost f2 (fs_rules _ FS2)) as (c2 & C2 & U2). rewrite (cost_row_is f2 c2 C2 U2). symmetry. apply U2. apply slack_rows. right. split; [exact cost_differs|exact (cost_row_in f (fs_rules _ FS))].
Qed.
Lemma slack_cost x : fcost f2 x = fcost f x.
Proof using FS FS2 W. unfold fcost. rewrite slack_cost_row, slack_value. pose proof cost_differs as N. apply String.eqb_neq in N. rewrite N. ring. Qed.
Lemma slack_rhs r' b : frhs f2 r' b <-> frhs f r' b.
Proof using W. unfold frhs. now rewrite (sk_rhs _ _ _ _ _ W). Qed.
Lemma slack_range r' w : frange f2 r' w <-> frange f r' w.
Proof using W. unfold frange. now rewrite (sk_ranges _ _ _ _ _ W). Qed.
Lemma slack_holds k' r' v : frow_holds f2 k' r' v <-> frow_holds f k' r' v.
Proof using W. unfold frow_holds, frhs, frange. now rewrite (sk_rhs _ _ _ _ _ W), (sk_ranges _ _ _ _ _ W). Qed.
Lemma slack_allowed c' v : fallowed f2 c' v <-> fallowed f c' v.
Proof using W. unfold fallowed. now rewrite (sk_bounds _ _ _ _ _ W). Qed.
Lemma slack_nonneg v : fallowed f2 c v <-> 0 <= v.
Proof using FS W.
  assert (N : forall t g, ~ In (t, g, c) (f_bounds f)) by (intros t g I; exact (sk_new _ _ _ _ _ W (fr_bound_columns f (fs_rules _ FS) t g c I))).
  rewrite slack_allowed. split.
  - intros [_ L]. apply L. intros t g I. elim (N t g I).
  - intros L. split; [intros t g I; elim (N t g I)|intros _; exact L].
Qed.
Lemma same_kind k' : In (Some k', r) (f_rows f) -> k' = k.
Proof using FS W.
  intros I. pose proof (sk_row _ _ _ _ _ W) as J. pose proof (fr_rows f (fs_rules _ FS)) as U. clear - I J U. induction (f_rows f) as [|[k0 r0] l IH]; [destruct I|]. cbn in U. inversion U as [|? ? N U']; subst.
  destruct I as [I|I], J as [J|J].
  - congruence.
  - injection I as -> ->. elim N. change r with (snd (Some k, r)). now apply in_map.
  - injection J as -> ->. elim N. change r with (snd (Some k', r)). now apply in_map.
  - now apply IH.
Qed.
(** the slack that belongs to values *)
Definition filled (b : Qc) (x : valuation) : valuation := fun c' => if String.eqb c' c then sign * (b - frow_value f x r) else x c'.
Lemma filled_other b x c' : In c' (names_of_columns f) -> filled b x c' = x c'.
Proof using W. intros I. unfold filled. destruct (String.eqb_spec c' c) as [->|_]; [elim (sk_new _ _ _ _ _ W I)|reflexivity]. Qed.
Lemma filled_new b x : filled b x c = sign * (b - frow_value f x r).
Proof. unfold filled. now rewrite String.eqb_refl. Qed.
Lemma slack_up x : ffeasible f x -> exists x2, ffeasible f2 x2 /\ fcost f2 x2 = fcost f x.
Proof using FS FS2 W.
  intros [A B]. destruct (some_rhs f r) as [b Hb]. exists (filled b x). split.
  - split.
    + intros k' r' I. rewrite slack_holds, slack_value, (agree_value f x (filled b x) r' (filled_other b x)). apply slack_rows in I. destruct I as [[-> E]|[N I]].
      * injection E as ->. rewrite String.eqb_refl, filled_new. apply (no_range_holds f KEqual r b _ FS Hb (sk_plain _ _ _ _ _ W)). cbn. transitivity (frow_value f x r + (sign * sign) * (b - frow_value f x r)); [ring|]. rewrite sign_sign. ring.
      * apply String.eqb_neq in N. rewrite N. replace (frow_value f x r' + 0) with (frow_value f x r') by ring. exact (A k' r' I).
    + intros c' I. apply (sk_columns _ _ _ _ _ W) in I. destruct I as [->|I].
      * apply slack_nonneg. rewrite filled_new. pose proof (proj1 (no_range_holds f k r b _ FS Hb (sk_plain _ _ _ _ _ W)) (A k r (sk_row _ _ _ _ _ W))) as H. pose proof (sk_kind _ _ _ _ _ W) as K. unfold sign. destruct k; cbn in H; [qlra|now elim K|qlra].
      * rewrite slack_allowed, (filled_other b x c' I). exact (B c' I).
  - rewrite slack_cost. apply agree_cost. exact (filled_other b x).
Qed.
Lemma slack_down x : ffeasible f2 x -> ffeasible f x /\ fcost f x = fcost f2 x.
Proof using FS FS2 W.
  intros [A B]. split; [|symmetry; apply slack_cost]. split.
  - intros k' r' I. destruct (String.eqb_spec r' r) as [->|N].
    + rewrite (same_kind k' I). destruct (some_rhs f r) as [b Hb]. apply (no_range_holds f k r b _ FS Hb (sk_plain _ _ _ _ _ W)).
      assert (E : In (Some KEqual, r) (f_rows f2)) by (apply slack_rows; now left). pose proof (A _ _ E) as E'. clear E. rename E' into E. rewrite slack_holds, slack_value, String.eqb_refl in E. apply (no_range_holds f KEqual r b _ FS Hb (sk_plain _ _ _ _ _ W)) in E. cbn in E.
      pose proof (proj1 (slack_nonneg _) (B c (proj2 (sk_columns _ _ _ _ _ W c) (or_introl eq_refl)))) as P. pose proof (sk_kind _ _ _ _ _ W) as K. unfold sign in E. destruct k; cbn; [qlra|now elim K|qlra].
    + assert (I2 : In (Some k', r') (f_rows f2)) by (apply slack_rows; now right). pose proof (A _ _ I2) as H2. clear I2. rename H2 into I2. apply String.eqb_neq in N. rewrite slack_holds, slack_value, N in I2. now replace (frow_value f x r' + 0) with (frow_value f x r') in I2 by ring.
  - intros c' I. exact (proj1 (slack_allowed _ _) (B c' (proj2 (sk_columns _ _ _ _ _ W c') (or_intror I)))).
Qed.
Lemma slack_dominates : dominates f2 f.
Proof using FS FS2 W. split; [exact (sk_sense _ _ _ _ _ W)|]. intros x X. destruct (slack_up x X) as (y & Y & C). exists y. split; [exact Y|]. rewrite C. apply better_refl. Qed.
Lemma slack_outcome a a2 : answered f a -> answered f2 a2 -> outcome_of f2 a2 = outcome_of f a.
Proof using FS FS2 W. intros A A2. apply same_outcome; try assumption; [exact slack_dominates|]. exact (back_dominates f f2 (fun x => x) (sk_sense _ _ _ _ _ W) slack_down). Qed.
Lemma slack_optimal s : answered f2 (Solved_to s) -> foptimal f (answer_at s).
Proof using FS FS2 W. intros A. apply (answered_right _ _ FS2) in A. exact (optimal_carried f f2 (fun x => x) slack_dominates slack_down _ (proj1 A)). Qed.
End Slack.

(** ** Free columns *)
Section Parts.
Variables (c p n : string) (f f2 : file).
Hypothesis FS : file_solvable f.
Hypothesis FS2 : file_solvable f2.
Hypothesis W : with_parts c p n f f2.
(** the difference of the two *)
Definition difference (x : valuation) : valuation := fun c' => if String.eqb c' c then x p - x n else x c'.
Lemma parts_value x r : frow_value f2 x r = frow_value f (difference x) r.
Proof using W.
  unfold frow_value. rewrite <- (total_permutation _ _ (Permutation_map _ (pt_coefficients _ _ _ _ _ W))). generalize (coefficients f). unfold total, difference. induction l as [|[[c' r'] v] l IH]; [reflexivity|].
  cbn [flat_map map]. rewrite map_app, fold_right_app, IH. destruct (String.eqb c' c); cbn [map fold_right]; destruct (String.eqb r' r); ring.
Qed.
Lemma parts_cost x : fcost f2 x = fcost f (difference x).
Proof using W. unfold fcost, cost_row. rewrite (pt_rows _ _ _ _ _ W). apply parts_value. Qed.
Lemma parts_holds k r v : frow_holds f2 k r v <-> frow_holds f k r v.
Proof using W. unfold frow_holds, frhs, frange. now rewrite (pt_rhs _ _ _ _ _ W), (pt_ranges _ _ _ _ _ W). Qed.
Lemma parts_allowed c' v : c' <> c -> fallowed f2 c' v <-> fallowed f c' v.
Proof using W.
  intros N. unfold fallowed. split; intros [A L]; (split; [intros t g I|intros H; apply L; intros t g I]).
  - apply (A t g), (pt_bounds _ _ _ _ _ W). now split.
  - apply (H t g). now apply (pt_bounds _ _ _ _ _ W) in I.
  - apply (A t g). now apply (pt_bounds _ _ _ _ _ W) in I.
  - apply (H t g), (pt_bounds _ _ _ _ _ W). now split.
Qed.
Lemma part_nonneg d v : ~ In d (names_of_columns f) -> fallowed f2 d v <-> 0 <= v.
Proof using FS W.
  intros N. assert (E : forall t g, ~ In (t, g, d) (f_bounds f2)).
  { intros t g I. apply (pt_bounds _ _ _ _ _ W) in I. exact (N (fr_bound_columns f (fs_rules _ FS) t g d (proj2 I))). }
  split; [intros [_ L]; apply L; intros t g I; elim (E t g I)|]. intros L. split; [intros t g I; elim (E t g I)|intros _; exact L].
Qed.
Lemma free_allowed v : fallowed f c v.
Proof using FS W.
  destruct (pt_free _ _ _ _ _ W) as [g G]. split.
  - intros t g' I. rewrite (fs_free _ FS t g g' c G I). exact Logic.I.
  - intros L. elim (L Free g G).
Qed.
Lemma parts_down x : ffeasible f2 x -> ffeasible f (difference x) /\ fcost f (difference x) = fcost f2 x.
Proof using FS W.
  intros [A B]. split; [|symmetry; apply parts_cost]. split.
  - intros k r I. rewrite <- parts_value, <- parts_holds. apply A. now rewrite (pt_rows _ _ _ _ _ W).
  - intros c' I. unfold difference. destruct (String.eqb_spec c' c) as [->|N]; [apply free_allowed|]. exact (proj1 (parts_allowed c' _ N) (B c' (proj2 (pt_columns _ _ _ _ _ W c') (or_intror (or_intror (conj N I)))))).
Qed.
Definition taken_apart (x : valuation) : valuation := fun c' => if String.eqb c' p then qmax 0 (x c) else if String.eqb c' n then qmax 0 (- x c) else x c'.
Lemma max_nonneg v : 0 <= qmax 0 v.
Proof. unfold qmax. destruct (qltb 0 v) eqn:E; qb; qlra. Qed.
Lemma max_minus v : qmax 0 v - qmax 0 (- v) = v.
Proof. unfold qmax. destruct (qltb 0 v) eqn:E, (qltb 0 (- v)) eqn:E'; qb; qlra. Qed.
Lemma apart_back x c' : In c' (names_of_columns f) -> difference (taken_apart x) c' = x c'.
Proof using W.
  intros I. unfold difference. destruct (String.eqb_spec c' c) as [->|N].
  - unfold taken_apart. rewrite String.eqb_refl. assert (E : String.eqb n p = false) by (apply String.eqb_neq; intros ->; now apply (pt_differ _ _ _ _ _ W)). rewrite E, String.eqb_refl. apply max_minus.
  - unfold taken_apart. destruct (String.eqb_spec c' p) as [->|_]; [elim (pt_new_p _ _ _ _ _ W I)|]. destruct (String.eqb_spec c' n) as [->|_]; [elim (pt_new_n _ _ _ _ _ W I)|reflexivity].
Qed.
Lemma parts_up x : ffeasible f x -> ffeasible f2 (taken_apart x) /\ fcost f2 (taken_apart x) = fcost f x.
Proof using FS W.
  intros [A B]. split; [|rewrite parts_cost; apply agree_cost; exact (apart_back x)]. split.
  - intros k r I. rewrite parts_value, parts_holds, (agree_value f x _ r (apart_back x)). apply A. now rewrite <- (pt_rows _ _ _ _ _ W).
  - intros c' I. unfold taken_apart. apply (pt_columns _ _ _ _ _ W) in I. destruct (String.eqb_spec c' p) as [->|P]; [apply (part_nonneg p _ (pt_new_p _ _ _ _ _ W)), max_nonneg|].
    destruct (String.eqb_spec c' n) as [->|Q]; [apply (part_nonneg n _ (pt_new_n _ _ _ _ _ W)), max_nonneg|]. destruct I as [->|[->|[N I]]]; [now elim P|now elim Q|]. apply (parts_allowed c' _ N). exact (B c' I).
Qed.
Lemma parts_dominates : dominates f2 f.
Proof using FS W. split; [exact (pt_sense _ _ _ _ _ W)|]. intros x X. destruct (parts_up x X) as [Y C]. exists (taken_apart x). split; [exact Y|]. rewrite C. apply better_refl. Qed.
Lemma parts_outcome a a2 : answered f a -> answered f2 a2 -> outcome_of f2 a2 = outcome_of f a.
Proof using FS FS2 W. intros A A2. apply same_outcome; try assumption; [exact parts_dominates|]. exact (back_dominates f f2 difference (pt_sense _ _ _ _ _ W) parts_down). Qed.
Lemma parts_optimal s : answered f2 (Solved_to s) -> foptimal f (fun c' => if String.eqb c' c then answer_at s p - answer_at s n else answer_at s c').
Proof using FS FS2 W. intros A. apply (answered_right _ _ FS2) in A. exact (optimal_carried f f2 difference parts_dominates parts_down _ (proj1 A)). Qed.
End Parts.

(** ** Two inequalities *)
Section TwoRows.
Variables (k : relation_kind) (r r' : string) (lo hi : Qc) (f f2 : file).
Hypothesis FS : file_solvable f.
Hypothesis FS2 : file_solvable f2.
Hypothesis W : with_two_rows k r r' lo hi f f2.
Lemma names_differ : r <> r'.
Proof using W. intros E. apply (tr_new _ _ _ _ _ _ _ W). rewrite <- E. exact (row_name_in f _ r (tr_row _ _ _ _ _ _ _ W)). Qed.
Lemma copied_value (x : valuation) n (l : list (string * string * Qc)) : total (map (fun '(c, r0, v) => if String.eqb r0 n then v * x c else 0) (map (fun '(c, _, v) => (c, r', v)) (filter (fun '(_, n0, _) => String.eqb n0 r) l))) =
  if String.eqb r' n then total (map (fun '(c, r0, v) => if String.eqb r0 r then v * x c else 0) l) else 0.
Proof.
  induction l as [|[[c r0] v] l IH]; [now destruct (String.eqb r' n)|]. cbn [filter]. unfold total in *. destruct (String.eqb r0 r) eqn:E; cbn [map fold_right]; rewrite ?E, IH; destruct (String.eqb r' n); ring.
Qed.
Lemma two_value x n : n <> r' -> frow_value f2 x n = frow_value f x n.
Proof using W.
  intros N. unfold frow_value. rewrite <- (total_permutation _ _ (Permutation_map _ (tr_coefficients _ _ _ _ _ _ _ W))), map_app, total_app, copied_value.
  assert (E : String.eqb r' n = false) by (apply String.eqb_neq; congruence). rewrite E. ring.
Qed.
Lemma two_new x : frow_value f2 x r' = frow_value f x r.
Proof using FS W.
  unfold frow_value. rewrite <- (total_permutation _ _ (Permutation_map _ (tr_coefficients _ _ _ _ _ _ _ W))), map_app, total_app, copied_value, String.eqb_refl.
  assert (Z : forall l, (forall c n v, In (c, n, v) l -> n <> r') -> total (map (fun '(c, r0, v) => if String.eqb r0 r' then v * x c else 0) l) = 0).
  { induction l as [|[[c n] v] l IH]; intros H; [reflexivity|]. unfold total in *. cbn [map fold_right]. rewrite IH by (intros c' n' v' I'; exact (H c' n' v' (or_intror I'))).
    destruct (String.eqb_spec n r') as [E|_]; [elim (H c n v (or_introl eq_refl) E)|ring]. }
  rewrite Z; [ring|]. intros c n v I ->. exact (tr_new _ _ _ _ _ _ _ W (fr_coefficient_rows f (fs_rules _ FS) c r' v I)).
Qed.
Lemma two_cost x : fcost f2 x = fcost f x.
Proof using FS FS2 W.
  assert (I : In (None, cost_row f) (f_rows f2)).
  { apply (tr_rows _ _ _ _ _ _ _ W). right. right. split; [|exact (cost_row_in f (fs_rules _ FS))]. intros E. exact (constraint_not_cost f k r (fs_rules _ FS) (tr_row _ _ _ _ _ _ _ W) (eq_sym E)). }
  assert (C : cost_row f2 = cost_row f) by (destruct (fr_cost f2 (fs_rules _ FS2)) as (c2 & C2 & U2); rewrite (cost_row_is f2 c2 C2 U2); symmetry; now apply U2).
  unfold fcost. rewrite C. apply two_value. intros E. apply (tr_new _ _ _ _ _ _ _ W). rewrite <- E. exact (row_name_in f _ _ (cost_row_in f (fs_rules _ FS))).
Qed.
Lemma two_plain v : (frow_holds f2 KLess r v <-> v <= hi) /\ (frow_holds f2 KGreater r' v <-> lo <= v).
Proof using FS FS2 W.
  split.
  - apply (no_range_holds f2 KLess r hi v FS2 (tr_rhs_hi _ _ _ _ _ _ _ W)). intros w H. apply (tr_ranges _ _ _ _ _ _ _ W) in H. now elim (proj1 H).
  - apply (no_range_holds f2 KGreater r' lo v FS2 (tr_rhs_lo _ _ _ _ _ _ _ W)). intros w H. apply (tr_ranges _ _ _ _ _ _ _ W) in H. destruct H as [_ [g H]].
    apply (tr_new _ _ _ _ _ _ _ W). apply constraint_row_name. exact (fr_range_rows f (fs_rules _ FS) g r' w H).
Qed.
Lemma two_other k' n v : n <> r -> In (k', n) (f_rows f) -> forall k0, frow_holds f2 k0 n v <-> frow_holds f k0 n v.
Proof using W.
  intros N I k0. assert (N' : n <> r') by (intros ->; exact (tr_new _ _ _ _ _ _ _ W (row_name_in f _ _ I))).
  assert (R : forall b, frhs f2 n b <-> frhs f n b) by (intros b; now apply (tr_rhs _ _ _ _ _ _ _ W)).
  assert (G : forall w, frange f2 n w <-> frange f n w) by (intros w; rewrite (tr_ranges _ _ _ _ _ _ _ W); tauto).
  unfold frow_holds. split; intros H b B; (destruct (H b (proj2 (R b) B)) as [P Q] || destruct (H b (proj1 (R b) B)) as [P Q]); (split; [intros Z; apply P; intros w X; apply (Z w); now apply G|intros w X; apply Q; now apply G]).
Qed.
Lemma two_kind k' : In (Some k', r) (f_rows f) -> k' = k.
Proof using FS W.
  intros I. pose proof (tr_row _ _ _ _ _ _ _ W) as J. pose proof (fr_rows f (fs_rules _ FS)) as U. clear - I J U. induction (f_rows f) as [|[k0 r0] l IH]; [destruct I|]. cbn in U. inversion U as [|? ? N U']; subst.
  destruct I as [I|I], J as [J|J].
  - congruence.
  - injection I as -> ->. elim N. change r with (snd (Some k, r)). now apply in_map.
  - injection J as -> ->. elim N. change r with (snd (Some k', r)). now apply in_map.
  - now apply IH.
Qed.
Lemma two_feasible x : ffeasible f2 x <-> ffeasible f x.
Proof using FS FS2 W.
  split; intros [A B]; split.
  - intros k' n I. destruct (String.eqb_spec n r) as [->|N].
    + rewrite (two_kind k' I). apply (tr_between _ _ _ _ _ _ _ W).
      pose proof (A KLess r (proj2 (tr_rows _ _ _ _ _ _ _ W _ _) (or_introl (conj eq_refl eq_refl)))) as H. pose proof (A KGreater r' (proj2 (tr_rows _ _ _ _ _ _ _ W _ _) (or_intror (or_introl (conj eq_refl eq_refl))))) as L.
      rewrite (two_value x r names_differ) in H. rewrite two_new in L. split; [exact (proj1 (proj2 (two_plain _)) L)|exact (proj1 (proj1 (two_plain _)) H)].
    + assert (N' : n <> r') by (intros ->; exact (tr_new _ _ _ _ _ _ _ W (row_name_in f _ _ I))).
      rewrite <- (two_value x n N'). apply (two_other _ n _ N I). exact (A k' n (proj2 (tr_rows _ _ _ _ _ _ _ W _ _) (or_intror (or_intror (conj N I))))).
  - intros c I. pose proof (B c (proj2 (tr_columns _ _ _ _ _ _ _ W c) I)) as H. unfold fallowed in *. now rewrite (tr_bounds _ _ _ _ _ _ _ W) in H.
  - intros k' n I. pose proof (proj1 (tr_between _ _ _ _ _ _ _ W _) (A k r (tr_row _ _ _ _ _ _ _ W))) as [L H]. apply (tr_rows _ _ _ _ _ _ _ W) in I. destruct I as [[E ->]|[[E ->]|[N I]]].
    + injection E as ->. apply (proj2 (proj1 (two_plain _))). now rewrite (two_value x r names_differ).
    + injection E as ->. apply (proj2 (proj2 (two_plain _))). now rewrite two_new.
    + assert (N' : n <> r') by (intros ->; exact (tr_new _ _ _ _ _ _ _ W (row_name_in f _ _ I))). rewrite (two_value x n N'). apply (two_other _ n _ N I). exact (A k' n I).
  - intros c I. pose proof (B c (proj1 (tr_columns _ _ _ _ _ _ _ W c) I)) as H. unfold fallowed in *. now rewrite (tr_bounds _ _ _ _ _ _ _ W).
Qed.
Lemma two_back x : ffeasible f2 x -> ffeasible f x /\ fcost f x = fcost f2 x.
Proof using FS FS2 W. intros X. split; [now apply two_feasible|symmetry; apply two_cost]. Qed.
Lemma two_dominates : dominates f2 f.
Proof using FS FS2 W. split; [exact (tr_sense _ _ _ _ _ _ _ W)|]. intros x X. exists x. split; [now apply two_feasible|]. rewrite two_cost. apply better_refl. Qed.
Lemma two_outcome a a2 : answered f a -> answered f2 a2 -> outcome_of f2 a2 = outcome_of f a.
Proof using FS FS2 W. intros A A2. apply same_outcome; try assumption; [exact two_dominates|]. exact (back_dominates f f2 (fun x => x) (tr_sense _ _ _ _ _ _ _ W) two_back). Qed.
Lemma two_optimal s : answered f2 (Solved_to s) -> foptimal f (answer_at s).
Proof using FS FS2 W. intros A. apply (answered_right _ _ FS2) in A. exact (optimal_carried f f2 (fun x => x) two_dominates two_back _ (proj1 A)). Qed.
End TwoRows.

(** ** A bound as an inequality *)
Section BoundRow.
Variables (c r : string) (u : Qc) (f f2 : file).
Hypothesis FS : file_solvable f.
Hypothesis FS2 : file_solvable f2.
Hypothesis W : with_bound_row c r u f f2.
Lemma bound_value x n : frow_value f2 x n = (if String.eqb r n then x c else 0) + frow_value f x n.
Proof using W.
  unfold frow_value. rewrite <- (total_permutation _ _ (Permutation_map _ (br_coefficients _ _ _ _ _ W))). cbn [map]. unfold total at 1. cbn [fold_right]. fold (total (map (fun '(c0, r'0, v) => if String.eqb r'0 n then v * x c0 else 0) (coefficients f))).
  destruct (String.eqb r n); ring.
Qed.
Lemma bound_old x n : n <> r -> frow_value f2 x n = frow_value f x n.
Proof using W. intros N. rewrite bound_value. destruct (String.eqb_spec r n) as [E|_]; [now elim N|ring]. Qed.
Lemma bound_own x : frow_value f2 x r = x c.
Proof using FS W.
  rewrite bound_value, String.eqb_refl. assert (Z : frow_value f x r = 0); [|rewrite Z; ring]. unfold frow_value.
  assert (H : forall l, (forall c n v, In (c, n, v) l -> n <> r) -> total (map (fun '(c, r0, v) => if String.eqb r0 r then v * x c else 0) l) = 0).
  { induction l as [|[[c0 n] v] l IH]; intros H; [reflexivity|]. unfold total in *. cbn [map fold_right]. rewrite IH by (intros c' n' v' I'; exact (H c' n' v' (or_intror I'))).
    destruct (String.eqb_spec n r) as [E|_]; [elim (H c0 n v (or_introl eq_refl) E)|ring]. }
  apply H. intros c0 n v I ->. exact (br_new _ _ _ _ _ W (fr_coefficient_rows f (fs_rules _ FS) c0 r v I)).
Qed.
Lemma bound_cost x : fcost f2 x = fcost f x.
Proof using FS FS2 W.
  assert (I : In (None, cost_row f) (f_rows f2)) by (apply (br_rows _ _ _ _ _ W); right; exact (cost_row_in f (fs_rules _ FS))).
  assert (C : cost_row f2 = cost_row f) by (destruct (fr_cost f2 (fs_rules _ FS2)) as (c2 & C2 & U2); rewrite (cost_row_is f2 c2 C2 U2); symmetry; now apply U2).
  unfold fcost. rewrite C. apply bound_old. intros E. apply (br_new _ _ _ _ _ W). rewrite <- E. exact (row_name_in f _ _ (cost_row_in f (fs_rules _ FS))).
Qed.
Lemma bound_plain v : frow_holds f2 KLess r v <-> v <= u.
Proof using FS FS2 W.
  apply (no_range_holds f2 KLess r u v FS2 (br_rhs_new _ _ _ _ _ W)). intros w H. apply (br_ranges _ _ _ _ _ W) in H. destruct H as [g H].
  apply (br_new _ _ _ _ _ W). apply constraint_row_name. exact (fr_range_rows f (fs_rules _ FS) g r w H).
Qed.
Lemma bound_other n v k : n <> r -> frow_holds f2 k n v <-> frow_holds f k n v.
Proof using W.
  intros N. assert (R : forall b, frhs f2 n b <-> frhs f n b) by (intros b; now apply (br_rhs _ _ _ _ _ W)). pose proof (br_ranges _ _ _ _ _ W n) as G.
  unfold frow_holds. split; intros H b B; (destruct (H b (proj2 (R b) B)) as [P Q] || destruct (H b (proj1 (R b) B)) as [P Q]); (split; [intros Z; apply P; intros w X; apply (Z w); now apply G|intros w X; apply Q; now apply G]).
Qed.
Lemma bound_allowed c' x : fallowed f c' x <-> fallowed f2 c' x /\ (c' = c -> x <= u).
Proof using W.
  pose proof (br_bounds _ _ _ _ _ W) as B. split.
  - intros [A L]. split; [split|].
    + intros t g I. apply B in I. exact (A t g (proj1 I)).
    + intros H. apply L. intros t g I. assert (D : {c' = c /\ t = UpperContinuous u} + {~ (c' = c /\ t = UpperContinuous u)}).
      { destruct (string_dec c' c) as [E|E]; [|right; tauto]. destruct t as [l|v| | | | | | | |]; try (right; intros [_ X]; discriminate X). destruct (Qc_eq_dec v u) as [V|V]; [left; split; congruence|right; intros [_ X]; injection X; congruence]. }
      destruct D as [[_ ->]|D]; [now cbn|]. apply (H t g). apply B. now split.
    + intros ->. destruct (br_bound _ _ _ _ _ W) as [g I]. exact (A _ g I).
  - intros [[A L] U]. split.
    + intros t g I. assert (D : {c' = c /\ t = UpperContinuous u} + {~ (c' = c /\ t = UpperContinuous u)}).
      { destruct (string_dec c' c) as [E|E]; [|right; tauto]. destruct t as [l|v| | | | | | | |]; try (right; intros [_ X]; discriminate X). destruct (Qc_eq_dec v u) as [V|V]; [left; split; congruence|right; intros [_ X]; injection X; congruence]. }
      destruct D as [[E ->]|D]; [exact (U E)|]. apply (A t g). apply B. now split.
    + intros H. apply L. intros t g I. apply B in I. exact (H t g (proj1 I)).
Qed.
Lemma bound_feasible x : ffeasible f2 x <-> ffeasible f x.
Proof using FS FS2 W.
  assert (NR : forall k n, In (k, n) (f_rows f) -> n <> r) by (intros k n I ->; exact (br_new _ _ _ _ _ W (row_name_in f _ _ I))).
  assert (Own : In (Some KLess, r) (f_rows f2)) by (apply (br_rows _ _ _ _ _ W); left; now split).
  split; intros [A B]; split.
  - intros k n I. rewrite <- (bound_old x n (NR _ _ I)). apply (bound_other n _ k (NR _ _ I)). apply A. apply (br_rows _ _ _ _ _ W). now right.
  - intros c' I. apply bound_allowed. split; [exact (B c' (proj2 (br_columns _ _ _ _ _ W c') I))|]. intros ->. rewrite <- bound_own. exact (proj1 (bound_plain _) (A KLess r Own)).
  - intros k n I. apply (br_rows _ _ _ _ _ W) in I. destruct I as [[E ->]|I].
    + injection E as ->. apply (proj2 (bound_plain _)). rewrite bound_own. exact (proj2 (proj1 (bound_allowed c _) (B c (br_column _ _ _ _ _ W))) eq_refl).
    + rewrite (bound_old x n (NR _ _ I)). apply (bound_other n _ k (NR _ _ I)). exact (A k n I).
  - intros c' I. exact (proj1 (proj1 (bound_allowed c' _) (B c' (proj1 (br_columns _ _ _ _ _ W c') I)))).
Qed.
Lemma bound_back x : ffeasible f2 x -> ffeasible f x /\ fcost f x = fcost f2 x.
Proof using FS FS2 W. intros X. split; [now apply bound_feasible|symmetry; apply bound_cost]. Qed.
Lemma bound_dominates : dominates f2 f.
Proof using FS FS2 W. split; [exact (br_sense _ _ _ _ _ W)|]. intros x X. exists x. split; [now apply bound_feasible|]. rewrite bound_cost. apply better_refl. Qed.
Lemma bound_outcome a a2 : answered f a -> answered f2 a2 -> outcome_of f2 a2 = outcome_of f a.
Proof using FS FS2 W. intros A A2. apply same_outcome; try assumption; [exact bound_dominates|]. exact (back_dominates f f2 (fun x => x) (br_sense _ _ _ _ _ W) bound_back). Qed.
Lemma bound_optimal s : answered f2 (Solved_to s) -> foptimal f (answer_at s).
Proof using FS FS2 W. intros A. apply (answered_right _ _ FS2) in A. exact (optimal_carried f f2 (fun x => x) bound_dominates bound_back _ (proj1 A)). Qed.
End BoundRow.

(** ** A number instead of a fixed column *)
Section FixedValue.
Variables (c : string) (v : Qc) (f f2 : file).
Hypothesis W : with_value c v f f2.
Definition put (x : valuation) : valuation := fun c' => if String.eqb c' c then v else x c'.
Lemma put_value x r : frow_value f2 x r = frow_value f (put x) r - coefficient_of f r c * v.
Proof using W.
  unfold frow_value, coefficient_of. rewrite <- (total_permutation _ _ (Permutation_map _ (wv_coefficients _ _ _ _ W))). unfold total. clear W. induction (coefficients f) as [|[[c' r'] w] l IH]; cbn [map fold_right filter]; [ring|].
  unfold put at 1. destruct (String.eqb c' c) eqn:E; cbn [negb map fold_right]; rewrite IH; destruct (String.eqb r' r); ring.
Qed.
Lemma put_holds k r w : In (Some k, r) (f_rows f) -> frow_holds f2 k r (w - coefficient_of f r c * v) <-> frow_holds f k r w.
Proof using W.
  intros I. set (s := coefficient_of f r c * v). assert (R : forall b, frhs f2 r (b - s) <-> frhs f r b) by (intros b; exact (wv_rhs _ _ _ _ W k r b I)).
  unfold frow_holds. split; intros H b B.
  - destruct (H _ (proj2 (R b) B)) as [P Q]. split.
    + intros N. apply (plain_shift k b w s), P. intros z Z. exact (N z (proj1 (wv_ranges _ _ _ _ W r z) Z)).
    + intros z Z. apply (range_shift k b z w s), Q. exact (proj2 (wv_ranges _ _ _ _ W r z) Z).
  - assert (E : b = (b + s) - s) by ring. rewrite E in B. apply R in B. rewrite E. destruct (H _ B) as [P Q]. split.
    + intros N. apply plain_shift, P. intros z Z. exact (N z (proj2 (wv_ranges _ _ _ _ W r z) Z)).
    + intros z Z. apply range_shift, Q. exact (proj1 (wv_ranges _ _ _ _ W r z) Z).
Qed.
Lemma put_allowed c' x : c' <> c -> fallowed f2 c' x <-> fallowed f c' x.
Proof using W.
  intros N. assert (B : forall t g, In (t, g, c') (f_bounds f2) <-> In (t, g, c') (f_bounds f)) by (intros t g; rewrite (wv_bounds _ _ _ _ W); tauto).
  unfold fallowed. split; intros [A L]; (split; [intros t g I; apply (A t g); now apply B|intros H; apply L; intros t g I; apply (H t g); now apply B]).
Qed.
Lemma put_feasible x : ffeasible f2 x <-> ffeasible f (put x).
Proof using W.
  unfold ffeasible. rewrite (wv_rows _ _ _ _ W). split; intros [P Q]; split.
  - intros k r I. apply (put_holds k r _ I). rewrite <- put_value. exact (P k r I).
  - intros c' I. unfold put. destruct (String.eqb_spec c' c) as [->|N]; [now apply (wv_fixed _ _ _ _ W)|]. apply (put_allowed c' _ N), Q. now apply (wv_columns _ _ _ _ W).
  - intros k r I. rewrite put_value. apply (put_holds k r _ I). exact (P k r I).
  - intros c' I. apply (wv_columns _ _ _ _ W) in I. destruct I as [N I]. apply (put_allowed c' _ N). specialize (Q c' I). unfold put in Q. apply String.eqb_neq in N. now rewrite N in Q.
Qed.
Lemma put_cost x : fcost f2 x = fcost f (put x) - coefficient_of f (cost_row f) c * v.
Proof using W. unfold fcost. replace (cost_row f2) with (cost_row f); [apply put_value|]. unfold cost_row. now rewrite (wv_rows _ _ _ _ W). Qed.
Lemma put_back x : ffeasible f x -> ffeasible f2 x /\ fcost f2 x = fcost f x - coefficient_of f (cost_row f) c * v.
Proof using W.
  intros X. assert (E : forall c', x c' = put x c').
  { intros c'. unfold put. destruct (String.eqb_spec c' c) as [->|N]; [|reflexivity]. apply (wv_fixed _ _ _ _ W). exact (proj2 X c (wv_column _ _ _ _ W)). }
  destruct (same_values f x (put x) E) as [F C]. split; [apply put_feasible; exact (F X)|rewrite put_cost; now rewrite C].
Qed.
Lemma put_best x : foptimal f2 x -> foptimal f (put x).
Proof using W.
  intros [X O]. split; [now apply put_feasible|]. intros y Y. destruct (put_back y Y) as [Y' C]. specialize (O _ Y'). rewrite C, put_cost, (wv_sense _ _ _ _ W) in O.
  destruct (fsense f); cbn in *; qlra.
Qed.
Lemma put_right a a' : OrderP.right f a -> OrderP.right f2 a' -> outcome_of f2 a' = shifted (coefficient_of f (cost_row f) c * v) (outcome_of f a).
Proof using W.
  set (s := coefficient_of f (cost_row f) c * v). intros R R'. pose proof (wv_sense _ _ _ _ W) as SE. destruct a as [z| |], a' as [z'| |]; cbn [outcome_of shifted]; try reflexivity.
  - destruct R as [[X O] _], R' as [O' _]. pose proof (put_best _ O') as [B OB]. f_equal. rewrite put_cost. fold s. f_equal. apply (better_antisym (fsense f)); [now apply OB|now apply O].
  - exfalso. destruct R as [[X _] _]. exact (R' _ (proj1 (put_back _ X))).
  - exfalso. destruct R as [[X O] _], R' as [_ U]. destruct (U (fcost f (answer_at z) - s)) as (y & Y & L). specialize (O _ (proj1 (put_feasible y) Y)). rewrite put_cost, SE in L. fold s in L.
    destruct (fsense f); cbn in O; qlra.
  - exfalso. destruct R' as [[X _] _]. exact (R _ (proj1 (put_feasible _) X)).
  - exfalso. destruct R' as [[x X] _]. exact (R _ (proj1 (put_feasible _) X)).
  - exfalso. destruct R' as [[X O] _], R as [_ U]. destruct (U (fcost f2 (answer_at z') + s)) as (y & Y & L). destruct (put_back y Y) as [Y' C]. specialize (O _ Y'). rewrite C, SE in O. fold s in O.
    destruct (fsense f); cbn in O; qlra.
  - exfalso. destruct R as [[x X] _]. exact (R' _ (proj1 (put_back _ X))).
Qed.
Lemma put_outcome a a2 : file_solvable f -> file_solvable f2 -> answered f a -> answered f2 a2 -> outcome_of f2 a2 = shifted (coefficient_of f (cost_row f) c * v) (outcome_of f a).
Proof using W. intros FS FS2 A A2. apply put_right; now apply answered_right. Qed.
Lemma put_optimal s : file_solvable f2 -> answered f2 (Solved_to s) -> foptimal f (fun c' => if String.eqb c' c then v else answer_at s c').
Proof using W. intros FS2 A. apply (answered_right _ _ FS2) in A. exact (put_best _ (proj1 A)). Qed.
End FixedValue.
