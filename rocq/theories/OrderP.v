(** * Proofs: comparing the answers to related files *)
From Verif Require Import SpecOrder TextSolveP TextPresolveP FixedP FileP MpsP.
Local Open Scope Qc_scope.

Lemma better_trans d a b c : better d a b -> better d b c -> better d a c.
Proof. destruct d; cbn; intros A B; [exact (Qcle_trans _ _ _ A B)|exact (Qcle_trans _ _ _ B A)]. Qed.
Lemma better_antisym d a b : better d a b -> better d b a -> a = b.
Proof. destruct d; cbn; intros A B; now apply Qcle_antisym. Qed.
Lemma better_refl d a : better d a a.
Proof. destruct d; apply Qcle_refl. Qed.

(** ** Answers are right *)
Definition right (f : file) (a : answer) : Prop :=
  match a with
  | Solved_to s => foptimal f (answer_at s) /\ (fsense f = Minimize -> s_objective s = fcost f (answer_at s))
  | NoSolution => forall x, ~ ffeasible f x
  | NoBound => funbounded f
  end.
Lemma with_right parse f text r n fuel a : file_solvable f -> (exists m, parse text = Got m /\ describes m f) -> solve_with parse r n fuel text = Got (Ok a) -> right f a.
Proof.
  intros FS T E. destruct a as [s| |].
  - destruct (with_optimum parse f text r n fuel s FS T E) as (_ & A). exact A.
  - exact (with_none parse f text r n fuel FS T E).
  - exact (with_unbounded parse f text r n fuel FS T E).
Qed.
Lemma pre_right parse f text r n fuel a : file_solvable f -> (exists m, parse text = Got m /\ describes m f) -> safe_with parse fuel text = true ->
  (a = NoBound -> exists x, ffeasible f x) -> presolve_with parse r n fuel text = Got (Ok a) -> right f a.
Proof.
  intros FS T SR F E. pose proof (pre_with_answer parse f text r n fuel a FS T SR E) as A. destruct a as [s| |].
  - destruct A as (_ & A). exact A.
  - exact A.
  - destruct (F eq_refl) as [x X]. exact (A x X).
Qed.
Lemma answered_right f a : file_solvable f -> answered f a -> right f a.
Proof.
  intros FS H. destruct H as [b r n fuel text OK SP E|b r n fuel text OK SP E|b r n fuel text OK SP SR F E|b r n fuel text OK SP SR F E].
  - exact (with_right _ f text r n fuel a FS (text_reads b f text OK SP) E).
  - exact (with_right _ f text r n fuel a FS (fixed_read b f text OK SP) E).
  - exact (pre_right _ f text r n fuel a FS (text_reads b f text OK SP) SR F E).
  - exact (pre_right _ f text r n fuel a FS (fixed_read b f text OK SP) SR F E).
Qed.

(** ** The order *)
Lemma right_order f f' a a' : right f a -> right f' a' -> dominates f' f -> no_worse (fsense f) (outcome_of f' a') (outcome_of f a).
Proof.
  intros R R' [S D]. destruct a' as [s'| |], a as [s| |]; cbn; try exact I.
  - destruct R as [[X O] _], R' as [[X' O'] _]. destruct (D _ X) as (y & Y & L). specialize (O' y Y). rewrite S in O'. exact (better_trans _ _ _ _ O' L).
  - destruct R as [_ U], R' as [[X' O'] _]. destruct (U (fcost f' (answer_at s'))) as (x & X & L). destruct (D x X) as (y & Y & L'). specialize (O' y Y). rewrite S in O'.
    pose proof (better_trans _ _ _ _ O' L') as Z. destruct (fsense f); cbn in Z, L; exact (Qclt_not_le _ _ L Z).
  - destruct R as [[X O] _]. destruct (D _ X) as (y & Y & _). exact (R' y Y).
  - destruct R as [[x X] _]. destruct (D _ X) as (y & Y & _). exact (R' y Y).
Qed.
Lemma no_worse_antisym d o o' : no_worse d o o' -> no_worse d o' o -> o = o'.
Proof. destruct o, o'; cbn; try tauto. intros A B. f_equal. exact (better_antisym _ _ _ A B). Qed.
Lemma order f f' a a' : file_solvable f -> file_solvable f' -> answered f a -> answered f' a' -> dominates f' f -> no_worse (fsense f) (outcome_of f' a') (outcome_of f a).
Proof. intros FS FS' A A' D. apply right_order; [now apply answered_right|now apply answered_right|assumption]. Qed.
Lemma same_outcome f f' a a' : file_solvable f -> file_solvable f' -> answered f a -> answered f' a' -> dominates f' f -> dominates f f' -> outcome_of f' a' = outcome_of f a.
Proof. intros FS FS' A A' D D'. apply (no_worse_antisym (fsense f)); [now apply order|]. destruct D as [S _]. rewrite <- S. now apply order. Qed.
Lemma same_objective f f' s s' : file_solvable f -> file_solvable f' -> answered f (Solved_to s) -> answered f' (Solved_to s') -> dominates f' f -> dominates f f' -> fsense f = Minimize -> s_objective s' = s_objective s.
Proof.
  intros FS FS' A A' D D' M. pose proof (same_outcome f f' _ _ FS FS' A A' D D') as E. injection E as E. destruct D as [S _].
  destruct (answered_right f _ FS A) as [_ O], (answered_right f' _ FS' A') as [_ O']. rewrite O by assumption. rewrite O' by congruence. exact E.
Qed.
Lemma dominates_refl f : dominates f f.
Proof. split; [reflexivity|]. intros x X. exists x. split; [assumption|apply better_refl]. Qed.

(** ** Other names and another order *)
Lemma coefficient_column f c r v : In (c, r, v) (coefficients f) -> In c (names_of_columns f).
Proof.
  unfold coefficients, names_of_columns, columns_of. intros H.
  assert (K : forall z o, (exists l, o = Some l /\ l = c) \/ In c (map fst (columns_from z o (f_columns f)))).
  { revert H. induction (f_columns f) as [|[c' values| |] l IH]; intros H z o; [destruct H| | |].
    - cbn [flat_map] in H. apply in_app_iff in H. cbn [columns_from].
      assert (Q : forall z o, c' = c \/ In c (map fst (columns_from z o l)) \/ (exists l0, o = Some l0 /\ l0 = c)).
      { intros z0 o0. destruct H as [H|H]; [left; apply in_map_iff in H; destruct H as ([? ?] & E & _); now injection E|]. destruct (IH H z0 o0) as [X|X]; [right; now right|right; now left]. }
      destruct o as [l0|].
      + destruct (String.eqb_spec l0 c') as [->|NE].
        * destruct (Q z (Some c')) as [->|[X|(l1 & E & X)]]; [left; now exists c|now right|left; injection E as <-; now exists c'].
        * destruct (Q z (Some c')) as [->|[X|(l1 & E & X)]]; [right; now left|right; now right|injection E as <-; right; left; exact X].
      + destruct (Q z (Some c')) as [->|[X|(l1 & E & X)]]; [right; now left|right; now right|injection E as <-; right; left; exact X].
    - cbn [flat_map app] in H. cbn [columns_from]. destruct (IH H true None) as [(? & ? & _)|X]; [discriminate|now right].
    - cbn [flat_map app] in H. cbn [columns_from]. destruct (IH H false None) as [(? & ? & _)|X]; [discriminate|now right]. }
  destruct (K false None) as [(? & ? & _)|X]; [discriminate|exact X].
Qed.
Lemma constraint_row_name f r : In r (map row_name (constraint_rows f)) -> In r (names_of_rows f).
Proof.
  intros H. apply in_map_iff in H. destruct H as (x & <- & H). unfold constraint_rows in H. apply in_flat_map in H. destruct H as ([[k|] n] & I & H); [|destruct H].
  destruct H as [<-|[]]. cbn. apply in_map_iff. exists (Some k, n). now split.
Qed.
Lemma row_name_in f k r : In (k, r) (f_rows f) -> In r (names_of_rows f).
Proof. intros H. apply in_map_iff. now exists (k, r). Qed.
Lemma cost_row_is f cost : In (None, cost) (f_rows f) -> (forall c, In (None, c) (f_rows f) -> c = cost) -> cost_row f = cost.
Proof.
  intros I U. unfold cost_row. destruct (filter _ (f_rows f)) as [|[k c] l] eqn:E.
  - assert (H : In (None, cost) (filter (fun '(k, _) => match k with None => true | Some _ => false end) (f_rows f))) by (apply filter_In; now split). rewrite E in H. destruct H.
  - assert (H : In (k, c) (filter (fun '(k, _) => match k with None => true | Some _ => false end) (f_rows f))) by (rewrite E; now left).
    apply filter_In in H. destruct H as [H K]. destruct k; [discriminate|]. now apply U.
Qed.
Lemma cost_row_in f : file_rules f -> In (None, cost_row f) (f_rows f).
Proof. intros OK. destruct (fr_cost f OK) as (cost & I & U). now rewrite (cost_row_is f cost I U). Qed.

Section Renamed.
Variables (row column : string -> string) (f f' : file).
Hypothesis OK : file_rules f.
Hypothesis RN : renamed row column f f'.
Lemma renamed_cost : cost_row f' = row (cost_row f).
Proof.
  destruct (fr_cost f OK) as (cost & I & U). rewrite (cost_row_is f cost I U). apply cost_row_is.
  - apply (Permutation_in _ (rn_rows _ _ _ _ RN)). apply in_map_iff. now exists (None, cost).
  - intros c C. apply (Permutation_in _ (Permutation_sym (rn_rows _ _ _ _ RN))) in C. apply in_map_iff in C. destruct C as ([k n] & E & C). injection E as -> <-. f_equal. now apply U.
Qed.
Section Values.
Variables x x' : valuation.
Hypothesis V : forall c, In c (names_of_columns f) -> x' (column c) = x c.
Lemma renamed_value r : In r (names_of_rows f) -> frow_value f' x' (row r) = frow_value f x r.
Proof.
  intros R. unfold frow_value. rewrite <- (total_perm _ _ (Permutation_map _ (rn_coefficients _ _ _ _ RN))), map_map. f_equal. apply map_ext_in. intros [[c r0] v] I.
  rewrite (V c (coefficient_column f c r0 v I)). destruct (String.eqb_spec r0 r) as [->|NE]; [now rewrite String.eqb_refl|].
  destruct (String.eqb_spec (row r0) (row r)) as [E|_]; [|reflexivity]. elim NE. apply (rn_rows_differ _ _ _ _ RN); [exact (fr_coefficient_rows f OK c r0 v I)|assumption|assumption].
Qed.
Lemma renamed_fcost : fcost f' x' = fcost f x.
Proof. unfold fcost. rewrite renamed_cost. apply renamed_value, (row_name_in f None), cost_row_in, OK. Qed.
Lemma renamed_given r b : In r (names_of_rows f) -> (exists g, In (g, row r, b) (vector_values (f_rhs f'))) <-> exists g, In (g, r, b) (vector_values (f_rhs f)).
Proof.
  intros R. rewrite (rn_rhs _ _ _ _ RN). split.
  - intros (g & r0 & I & E). exists g. replace r with r0; [exact I|]. apply (rn_rows_differ _ _ _ _ RN); [apply constraint_row_name; exact (fr_rhs_rows f OK g r0 b I)|assumption|now symmetry].
  - intros (g & I). now exists g, r.
Qed.
Lemma renamed_rhs r b : In r (names_of_rows f) -> frhs f' (row r) b <-> frhs f r b.
Proof.
  intros R. unfold frhs. rewrite (renamed_given r b R).
  assert (K : (forall g b', ~ In (g, row r, b') (vector_values (f_rhs f'))) <-> forall g b', ~ In (g, r, b') (vector_values (f_rhs f))).
  { split; intros H g b' I.
    - destruct (proj2 (renamed_given r b' R)) as [g' I']; [now exists g|]. exact (H g' b' I').
    - destruct (proj1 (renamed_given r b' R)) as [g' I']; [now exists g|]. exact (H g' b' I'). }
  now rewrite K.
Qed.
Lemma renamed_range r v : In r (names_of_rows f) -> frange f' (row r) v <-> frange f r v.
Proof.
  intros R. unfold frange. rewrite (rn_ranges _ _ _ _ RN). split.
  - intros (g & r0 & I & E). exists g. replace r with r0; [exact I|]. apply (rn_rows_differ _ _ _ _ RN); [apply constraint_row_name; exact (fr_range_rows f OK g r0 v I)|assumption|now symmetry].
  - intros (g & I). now exists g, r.
Qed.
Lemma renamed_holds k r v : In r (names_of_rows f) -> frow_holds f' k (row r) v <-> frow_holds f k r v.
Proof.
  intros R. unfold frow_holds. split; intros H b B.
  - destruct (H b (proj2 (renamed_rhs r b R) B)) as [P Q]. split; [intros N; apply P; intros w W; exact (N w (proj1 (renamed_range r w R) W))|intros w W; exact (Q w (proj2 (renamed_range r w R) W))].
  - destruct (H b (proj1 (renamed_rhs r b R) B)) as [P Q]. split; [intros N; apply P; intros w W; exact (N w (proj2 (renamed_range r w R) W))|intros w W; exact (Q w (proj1 (renamed_range r w R) W))].
Qed.
Lemma renamed_bound c t : In c (names_of_columns f) -> (exists g, In (t, g, column c) (f_bounds f')) <-> exists g, In (t, g, c) (f_bounds f).
Proof.
  intros C. rewrite (rn_bounds _ _ _ _ RN). split.
  - intros (g & c0 & I & E). exists g. replace c with c0; [exact I|]. apply (rn_columns_differ _ _ _ _ RN); [exact (fr_bound_columns f OK t g c0 I)|assumption|now symmetry].
  - intros (g & I). now exists g, c.
Qed.
Lemma renamed_allowed c v : In c (names_of_columns f) -> fallowed f' (column c) v <-> fallowed f c v.
Proof.
  intros C. unfold fallowed. split; intros [A B]; split.
  - intros t g I. destruct (proj2 (renamed_bound c t C)) as [g' I']; [now exists g|]. exact (A t g' I').
  - intros L. apply B. intros t g I. destruct (proj1 (renamed_bound c t C)) as [g' I']; [now exists g|]. exact (L t g' I').
  - intros t g I. destruct (proj1 (renamed_bound c t C)) as [g' I']; [now exists g|]. exact (A t g' I').
  - intros L. apply B. intros t g I. destruct (proj2 (renamed_bound c t C)) as [g' I']; [now exists g|]. exact (L t g' I').
Qed.
Lemma renamed_feasible : ffeasible f' x' <-> ffeasible f x.
Proof.
  split; intros [A B]; split.
  - intros k r I. rewrite <- (renamed_value r (row_name_in f _ r I)). apply (renamed_holds k r _ (row_name_in f _ r I)), A. apply (Permutation_in _ (rn_rows _ _ _ _ RN)). apply in_map_iff. now exists (Some k, r).
  - intros c I. rewrite <- (V c I). apply (renamed_allowed c _ I), B. apply (proj2 (rn_columns _ _ _ _ RN (column c))). now exists c.
  - intros k r' I. apply (Permutation_in _ (Permutation_sym (rn_rows _ _ _ _ RN))) in I. apply in_map_iff in I. destruct I as ([k0 r] & E & I). injection E as -> <-.
    pose proof (row_name_in f _ r I) as R. rewrite (renamed_value r R). apply (renamed_holds k r _ R). now apply A.
  - intros c' I. apply (proj1 (rn_columns _ _ _ _ RN c')) in I. destruct I as (c & I & ->). rewrite (V c I). apply (renamed_allowed c _ I). now apply B.
Qed.
End Values.
(** the values of the columns under their new names *)
Definition carried (x : valuation) : valuation := fun n => match find (fun c => String.eqb (column c) n) (names_of_columns f) with Some c => x c | None => 0 end.
Lemma carried_at x c : In c (names_of_columns f) -> carried x (column c) = x c.
Proof.
  intros C. unfold carried. destruct (find _ _) as [c0|] eqn:E.
  - apply find_some in E. destruct E as [I E]. apply String.eqb_eq in E. f_equal. now apply (rn_columns_differ _ _ _ _ RN).
  - pose proof (find_none _ _ E c C) as N. cbn in N. now rewrite String.eqb_refl in N.
Qed.
Lemma renamed_dominates : dominates f' f.
Proof.
  split; [exact (rn_sense _ _ _ _ RN)|]. intros x X. exists (carried x). split; [now apply (renamed_feasible x (carried x) (carried_at x))|].
  rewrite (renamed_fcost x (carried x) (carried_at x)). apply better_refl.
Qed.
Lemma renamed_dominated : dominates f f'.
Proof.
  split; [symmetry; exact (rn_sense _ _ _ _ RN)|]. intros x' X. exists (fun c => x' (column c)). split; [now apply (renamed_feasible (fun c => x' (column c)) x' (fun c _ => eq_refl))|].
  rewrite <- (renamed_fcost (fun c => x' (column c)) x' (fun c _ => eq_refl)). apply better_refl.
Qed.
End Renamed.

(** ** Less asked *)
Lemma filter_value (l : list (string * string * Qc)) x r :
  total (map (fun '(c, r', v) => if String.eqb r' r then v * x c else 0) l) = total (map (fun '(c, _, v) => v * x c) (filter (fun '(_, r', _) => String.eqb r' r) l)).
Proof. unfold total. induction l as [|[[c r'] v] l IH]; [reflexivity|]. cbn [map fold_right filter]. rewrite IH. destruct (String.eqb r' r); cbn [map fold_right]; ring. Qed.
Section Relaxed.
Variables f f' : file.
Hypothesis OK : file_rules f'.
Hypothesis RX : relaxed f f'.
Lemma relaxed_value x r : In r (names_of_rows f') -> frow_value f' x r = frow_value f x r.
Proof. intros R. unfold frow_value. now rewrite !filter_value, (rx_coefficients _ _ RX r R). Qed.
Lemma relaxed_feasible x : ffeasible f x -> ffeasible f' x.
Proof.
  intros [A B]. split.
  - intros k r I b B0. rewrite (relaxed_value x r (row_name_in f' _ r I)). assert (R : frhs f r b).
    { destruct B0 as [G|[-> N]]; [left; now apply (rx_rhs _ _ RX k r b I)|right; split; [reflexivity|]]. intros g b' I'. destruct (proj2 (rx_rhs _ _ RX k r b' I)) as [g' J]; [now exists g|]. exact (N g' b' J). }
    destruct (A k r (rx_rows _ _ RX k r I) b R) as [P Q]. split.
    + intros N. apply P. intros w W. apply (N w). now apply (rx_ranges _ _ RX k r w I).
    + intros w W. apply Q. now apply (rx_ranges _ _ RX k r w I).
  - intros c C. apply (rx_bounds _ _ RX c _ C), B, (rx_columns _ _ RX c C).
Qed.
Lemma relaxed_cost x : fcost f' x = fcost f x.
Proof. unfold fcost. rewrite <- (rx_cost _ _ RX). apply relaxed_value, (row_name_in f' None), cost_row_in, OK. Qed.
Lemma relaxed_dominates : dominates f' f.
Proof. split; [exact (rx_sense _ _ RX)|]. intros x X. exists x. split; [now apply relaxed_feasible|]. rewrite relaxed_cost. apply better_refl. Qed.
End Relaxed.

(** ** Other units *)
Lemma scale_coefficients s items : flat_map (fun item => match item with Entries c values => map (fun '(r, v) => (c, r, v)) values | _ => [] end) (scale_items s items) =
  map (fun '(c, r, v) => (c, r, s r * v)) (flat_map (fun item => match item with Entries c values => map (fun '(r, v) => (c, r, v)) values | _ => [] end) items).
Proof.
  induction items as [|[c values| |] l IH]; [reflexivity| | |]; cbn [scale_items map flat_map app]; [|exact IH|exact IH].
  rewrite map_app. fold (scale_items s l). rewrite IH. f_equal. unfold scale_values. rewrite !map_map. apply map_ext. now intros [r v].
Qed.
Lemma scale_columns s items : forall z o, columns_from z o (scale_items s items) = columns_from z o items.
Proof. induction items as [|[c values| |] l IH]; intros z o; cbn [scale_items map columns_from]; [reflexivity| | |]; fold (scale_items s l); rewrite ?IH; reflexivity. Qed.
Lemma scale_vector s l : vector_values (map (fun '(g, values) => (g, scale_values s values)) l) = map (fun '(g, r, v) => (g, r, s r * v)) (vector_values l).
Proof.
  unfold vector_values. induction l as [|[g values] l IH]; [reflexivity|]. cbn [map flat_map]. rewrite map_app, IH. f_equal. unfold scale_values. rewrite !map_map. apply map_ext. now intros [r v].
Qed.
Lemma scale_total s (l : list (string * string * Qc)) (x : valuation) r : total (map (fun '(c, r', v) => if String.eqb r' r then v * x c else 0) (map (fun '(c, r', v) => (c, r', s r' * v)) l)) =
  s r * total (map (fun '(c, r', v) => if String.eqb r' r then v * x c else 0) l).
Proof.
  unfold total. induction l as [|[[c r'] v] l IH]; cbn [map fold_right]; [ring|]. rewrite IH. destruct (String.eqb_spec r' r) as [->|_]; ring.
Qed.
Lemma scaled_value f f' s x r : f_columns f' = scale_items s (f_columns f) -> frow_value f' x r = s r * frow_value f x r.
Proof. intros E. unfold frow_value. unfold coefficients at 1. rewrite E, scale_coefficients. apply scale_total. Qed.
Lemma scaled_columns f f' s : f_columns f' = scale_items s (f_columns f) -> columns_of f' = columns_of f.
Proof. intros E. unfold columns_of. rewrite E. apply scale_columns. Qed.
Lemma constraint_not_cost f k r : file_rules f -> In (Some k, r) (f_rows f) -> r <> cost_row f.
Proof.
  intros OK I E. pose proof (cost_row_in f OK) as C. rewrite <- E in C. pose proof (fr_rows f OK) as N. revert I C N. clear. induction (f_rows f) as [|[k' r'] l IH]; intros I C N; [destruct I|].
  cbn in N. apply NoDup_cons_iff in N. destruct N as [N1 N2]. destruct I as [I|I], C as [C|C].
  - congruence.
  - injection I as -> ->. apply N1, in_map_iff. now exists (None, r).
  - injection C as -> ->. apply N1, in_map_iff. now exists (Some k, r).
  - exact (IH I C N2).
Qed.

Section Cost.
Variables (k : Qc) (f : file).
Hypothesis OK : file_rules f.
Hypothesis K : k <> 0.
Let f' := scale_cost k f.
Lemma scaled_cost x : fcost f' x = k * fcost f x.
Proof. unfold fcost. rewrite (scaled_value f f' (at_row (cost_row f) k) x (cost_row f') eq_refl). change (cost_row f') with (cost_row f). unfold at_row. now rewrite String.eqb_refl. Qed.
Lemma scaled_cost_feasible x : ffeasible f' x <-> ffeasible f x.
Proof.
  unfold ffeasible. rewrite (scaled_columns f f' _ eq_refl). change (f_rows f') with (f_rows f).
  assert (V : forall kd r, In (Some kd, r) (f_rows f) -> frow_value f' x r = frow_value f x r).
  { intros kd r I. rewrite (scaled_value f f' (at_row (cost_row f) k) x r eq_refl). unfold at_row. destruct (String.eqb_spec r (cost_row f)) as [E|_]; [elim (constraint_not_cost f kd r OK I E)|ring]. }
  split; intros [A B]; (split; [|exact B]); intros kd r I; specialize (A kd r I); rewrite (V kd r I) in *; exact A.
Qed.
Lemma scaled_sense : fsense f' = if qneg k then opposite (fsense f) else fsense f.
Proof. reflexivity. Qed.
Lemma mul_pos_le a b c : 0 < c -> c * a <= c * b -> a <= b.
Proof. intros C H. destruct (Qclt_le_dec b a) as [L|L]; [|exact L]. exfalso. qnra. Qed.
Lemma scaled_better x y : better (fsense f') (k * x) (k * y) <-> better (fsense f) x y.
Proof.
  rewrite scaled_sense. unfold qneg. destruct (qltb k 0) eqn:N; qb.
  - destruct (fsense f); cbn; split; intros H; try (apply (mul_pos_le _ _ (- k)); qlra); qnra.
  - assert (P : 0 < k) by (apply Qcle_lt_or_eq in N; destruct N as [N|N]; [exact N|congruence]). destruct (fsense f); cbn; split; intros H; try (apply (mul_pos_le _ _ k); assumption); qnra.
Qed.
Lemma scaled_cost_outcome a a' : right f a -> right f' a' -> outcome_of f' a' = times k (outcome_of f a).
Proof.
  assert (W : forall bound x, match fsense f' with Minimize => fcost f' x < k * bound | Maximize => k * bound < fcost f' x end -> match fsense f with Minimize => fcost f x < bound | Maximize => bound < fcost f x end).
  { intros bound x H. rewrite scaled_cost in H. pose proof (scaled_better bound (fcost f x)) as Z. destruct (fsense f), (fsense f'); cbn in Z;
    (match goal with |- ?a < ?b => destruct (Qclt_le_dec a b) as [L|L]; [exact L|] end); exfalso; apply Z in L; exact (Qclt_not_le _ _ H L). }
  assert (W' : forall bound x, match fsense f with Minimize => fcost f x < bound | Maximize => bound < fcost f x end -> match fsense f' with Minimize => fcost f' x < k * bound | Maximize => k * bound < fcost f' x end).
  { intros bound x H. rewrite scaled_cost. pose proof (scaled_better bound (fcost f x)) as Z. destruct (fsense f), (fsense f'); cbn in Z;
    (match goal with |- ?a < ?b => destruct (Qclt_le_dec a b) as [L|L]; [exact L|] end); exfalso; apply Z in L; exact (Qclt_not_le _ _ H L). }
  intros R R'. destruct a as [s| |], a' as [s'| |]; cbn [outcome_of times]; try reflexivity.
  - destruct R as [[X O] _], R' as [[X' O'] _]. rewrite scaled_cost. f_equal. f_equal. apply (better_antisym (fsense f)).
    + apply scaled_better. rewrite <- !scaled_cost. apply O'. now apply scaled_cost_feasible.
    + apply O. now apply scaled_cost_feasible.
  - exfalso. destruct R as [[X _] _]. apply (R' (answer_at s)). now apply scaled_cost_feasible.
  - exfalso. destruct R as [[X O] _], R' as [_ U]. destruct (U (k * fcost f (answer_at s))) as (y & Y & L). apply W in L. specialize (O y (proj1 (scaled_cost_feasible y) Y)).
    destruct (fsense f); exact (Qclt_not_le _ _ L O).
  - exfalso. destruct R' as [[X _] _]. apply (R (answer_at s')). now apply scaled_cost_feasible.
  - exfalso. destruct R' as [[x X] _]. apply (R x). now apply scaled_cost_feasible.
  - exfalso. destruct R' as [[X O] _], R as [_ U]. destruct (U (fcost f (answer_at s'))) as (y & Y & L). apply W' in L. specialize (O y (proj2 (scaled_cost_feasible y) Y)). rewrite <- scaled_cost in L.
    destruct (fsense f'); exact (Qclt_not_le _ _ L O).
  - exfalso. destruct R as [[x X] _]. apply (R' x). now apply scaled_cost_feasible.
Qed.
End Cost.
Lemma scaled_costs k f a a' : k <> 0 -> file_solvable f -> file_solvable (scale_cost k f) -> answered f a -> answered (scale_cost k f) a' -> outcome_of (scale_cost k f) a' = times k (outcome_of f a).
Proof. intros K FS FS' A A'. apply scaled_cost_outcome; [exact (fs_rules f FS)|assumption|now apply answered_right|now apply answered_right]. Qed.

Lemma plain_scale k c b v : 0 < c -> plain_holds k (c * b) (c * v) <-> plain_holds k b v.
Proof.
  intros C. destruct k; cbn; split; intros H.
  all: try (apply (mul_pos_le _ _ c); assumption); try qnra.
Qed.
Lemma qabs_scale c w : 0 < c -> qabs (c * w) = c * qabs w /\ qneg (c * w) = qneg w.
Proof.
  intros C. unfold qabs, qneg. destruct (qltb w 0) eqn:A; qb.
  - assert (L : c * w < 0) by qnra. apply qltb_true in L. rewrite L. split; [ring|reflexivity].
  - assert (L : 0 <= c * w) by qnra. destruct (qltb (c * w) 0) eqn:B; qb; [elim (Qclt_not_le _ _ B L)|]. split; reflexivity.
Qed.
Lemma range_scale k c b w v : 0 < c -> range_holds k (c * b) (c * w) (c * v) <-> range_holds k b w v.
Proof.
  intros C. destruct (qabs_scale c w C) as [E E']. unfold range_holds. rewrite E, E'.
  assert (L : c * b - c * qabs w <= c * v <-> b - qabs w <= v).
  { replace (c * b - c * qabs w) with (c * (b - qabs w)) by ring. apply (plain_scale KGreater c). exact C. }
  assert (U : c * v <= c * b + c * qabs w <-> v <= b + qabs w).
  { replace (c * b + c * qabs w) with (c * (b + qabs w)) by ring. apply (plain_scale KLess c). exact C. }
  assert (M : c * b <= c * v <-> b <= v) by (apply (plain_scale KGreater c); exact C).
  assert (N : c * v <= c * b <-> v <= b) by (apply (plain_scale KLess c); exact C).
  destruct k, (qneg w); rewrite ?L, ?U, ?M, ?N; reflexivity.
Qed.
Section Row.
Variables (k : Qc) (row : string) (f : file).
Hypothesis OK : file_rules f.
Hypothesis K : 0 < k.
Hypothesis R : exists kd, In (Some kd, row) (f_rows f).
Let f' := scale_row k row f.
Let s := at_row row k.
Lemma at_row_pos r : 0 < s r.
Proof. unfold s, at_row. destruct (String.eqb r row); [exact K|reflexivity]. Qed.
Lemma at_row_cancel r a b : s r * a = s r * b -> a = b.
Proof. intros E. pose proof (at_row_pos r) as P. apply Qcle_antisym; apply (mul_pos_le _ _ (s r) P); rewrite E; apply Qcle_refl. Qed.
Lemma scaled_in l g r v : In (g, r, s r * v) (vector_values (map (fun '(g, values) => (g, scale_values s values)) l)) <-> In (g, r, v) (vector_values l).
Proof.
  rewrite scale_vector. split; intros H.
  - apply in_map_iff in H. destruct H as ([[g0 r0] v0] & E & H). assert (E1 : g0 = g) by congruence. assert (E2 : r0 = r) by congruence. assert (E3 : s r0 * v0 = s r * v) by congruence. subst g0 r0. apply at_row_cancel in E3. now subst v0.
  - apply in_map_iff. now exists (g, r, v).
Qed.
Lemma scaled_in_inv l g r w : In (g, r, w) (vector_values (map (fun '(g, values) => (g, scale_values s values)) l)) -> exists v, w = s r * v /\ In (g, r, v) (vector_values l).
Proof. rewrite scale_vector. intros H. apply in_map_iff in H. destruct H as ([[g0 r0] v0] & E & H). exists v0. assert (E1 : g0 = g) by congruence. assert (E2 : r0 = r) by congruence. assert (E3 : s r0 * v0 = w) by congruence. subst. now split. Qed.
Lemma scaled_rhs r b : frhs f' r (s r * b) <-> frhs f r b.
Proof.
  unfold frhs. change (f_rhs f') with (map (fun '(g, values) => (g, scale_values s values)) (f_rhs f)). split; intros [[g H]|[E N]].
  - left. exists g. now apply scaled_in.
  - right. split; [apply (at_row_cancel r); rewrite E; ring|]. intros g b' H. apply (N g (s r * b')). now apply scaled_in.
  - left. exists g. now apply scaled_in.
  - right. split; [rewrite E; ring|]. intros g b' H. apply scaled_in_inv in H. destruct H as (v & _ & H). exact (N g v H).
Qed.
Lemma scaled_rhs_inv r b : frhs f' r b -> exists b0, b = s r * b0 /\ frhs f r b0.
Proof.
  intros H. exists (b / s r). assert (E : b = s r * (b / s r)). { field. intros Z. pose proof (at_row_pos r) as P. rewrite Z in P. discriminate P. }
  split; [exact E|]. apply scaled_rhs. now rewrite <- E.
Qed.
Lemma scaled_range r w : frange f' r (s r * w) <-> frange f r w.
Proof. unfold frange. change (f_ranges f') with (map (fun '(g, values) => (g, scale_values s values)) (f_ranges f)). split; intros [g H]; exists g; now apply scaled_in. Qed.
Lemma scaled_range_inv r w : frange f' r w -> exists w0, w = s r * w0 /\ frange f r w0.
Proof. intros [g H]. apply scaled_in_inv in H. destruct H as (v & E & H). exists v. split; [exact E|]. now exists g. Qed.
Lemma scaled_holds kd r v : frow_holds f' kd r (s r * v) <-> frow_holds f kd r v.
Proof.
  unfold frow_holds. split; intros H b B.
  - destruct (H _ (proj2 (scaled_rhs r b) B)) as [P Q]. split.
    + intros N. apply (plain_scale kd (s r) b v (at_row_pos r)), P. intros w W. apply scaled_range_inv in W. destruct W as (w0 & _ & W). exact (N w0 W).
    + intros w W. apply (range_scale kd (s r) b w v (at_row_pos r)), Q. now apply scaled_range.
  - destruct (scaled_rhs_inv r b B) as (b0 & -> & B0). destruct (H b0 B0) as [P Q]. split.
    + intros N. apply (plain_scale kd (s r) b0 v (at_row_pos r)), P. intros w W. apply (N (s r * w)). now apply scaled_range.
    + intros w W. destruct (scaled_range_inv r w W) as (w0 & -> & W0). apply (range_scale kd (s r) b0 w0 v (at_row_pos r)), Q, W0.
Qed.
Lemma scaled_row_feasible x : ffeasible f' x <-> ffeasible f x.
Proof.
  unfold ffeasible. rewrite (scaled_columns f f' s eq_refl). change (f_rows f') with (f_rows f). split; intros [A B]; (split; [|exact B]); intros kd r I; specialize (A kd r I).
  - rewrite (scaled_value f f' s x r eq_refl) in A. now apply scaled_holds in A.
  - rewrite (scaled_value f f' s x r eq_refl). now apply scaled_holds.
Qed.
Lemma scaled_row_cost x : fcost f' x = fcost f x.
Proof.
  unfold fcost. rewrite (scaled_value f f' s x (cost_row f') eq_refl). change (cost_row f') with (cost_row f). unfold s, at_row. destruct (String.eqb_spec (cost_row f) row) as [E|_]; [|ring].
  destruct R as [kd I]. elim (constraint_not_cost f kd row OK I). now symmetry.
Qed.
Lemma scaled_row_dominates : dominates f' f.
Proof. split; [reflexivity|]. intros x X. exists x. split; [now apply scaled_row_feasible|]. rewrite scaled_row_cost. apply better_refl. Qed.
Lemma scaled_row_dominated : dominates f f'.
Proof. split; [reflexivity|]. intros x X. exists x. split; [now apply scaled_row_feasible|]. rewrite scaled_row_cost. apply better_refl. Qed.
End Row.

(** ** Answers come *)
Lemma both_answered b b' f f' text text' : file_ok f -> file_ok f' -> file_solvable f -> file_solvable f' -> spells text f -> spells text' f' ->
  exists fuel a a', forall fuel', (fuel <= fuel')%nat -> solve_text b UseRows FirstProfitable fuel' text = Got (Ok a) /\ solve_text b' UseRows FirstProfitable fuel' text' = Got (Ok a').
Proof.
  intros OK OK' FS FS' SP SP'. destruct (with_terminates (parse_free b) f text FS (text_reads b f text OK SP)) as (n & a & H). destruct (with_terminates (parse_free b') f' text' FS' (text_reads b' f' text' OK' SP')) as (n' & a' & H').
  exists (Nat.max n n'), a, a'. intros m L. split; [apply H; lia|apply H'; lia].
Qed.
