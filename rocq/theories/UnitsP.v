(** * Proofs: other units of a variable, constraints that say nothing new, and programs with one optimum *)
From Verif Require Import SpecUnits OrderP TextSolveP TextPresolveP FixedP FileP MpsP.
Local Open Scope Qc_scope.

(** ** Programs with one optimum *)
Lemma answered_names f s : file_solvable f -> answered f (Solved_to s) -> map fst (s_values s) = names_of_columns f.
Proof.
  intros FS H. destruct H as [b r n fuel text OK SP E|b r n fuel text OK SP E|b r n fuel text OK SP SR F E|b r n fuel text OK SP SR F E].
  - exact (proj1 (with_optimum _ f text r n fuel s FS (text_reads b f text OK SP) E)).
  - exact (proj1 (with_optimum _ f text r n fuel s FS (fixed_read b f text OK SP) E)).
  - exact (proj1 (pre_with_answer _ f text r n fuel _ FS (text_reads b f text OK SP) SR E)).
  - exact (proj1 (pre_with_answer _ f text r n fuel _ FS (fixed_read b f text OK SP) SR E)).
Qed.
Lemma find_values (l l' : list (string * Qc)) : NoDup (map fst l) -> map fst l' = map fst l ->
  (forall c, In c (map fst l) -> match find (fun '(n, _) => String.eqb n c) l' with Some (_, v) => v | None => 0 end = match find (fun '(n, _) => String.eqb n c) l with Some (_, v) => v | None => 0 end) -> l' = l.
Proof.
  revert l'. induction l as [|[n v] l IH]; intros [|[n' v'] l'] N E V; [reflexivity|discriminate E|discriminate E|].
  cbn [map fst] in *. injection E as -> E. apply NoDup_cons_iff in N. destruct N as [N1 N2]. f_equal.
  - specialize (V n (or_introl eq_refl)). cbn [find] in V. rewrite String.eqb_refl in V. now subst.
  - apply IH; [assumption|assumption|]. intros c C. specialize (V c (or_intror C)). cbn [find] in V. destruct (String.eqb_spec n c) as [->|_]; [elim (N1 C)|exact V].
Qed.
Lemma one_optimum f s s' : file_solvable f -> answered f (Solved_to s) -> answered f (Solved_to s') -> only_optimum f -> s_values s' = s_values s.
Proof.
  intros FS A A' U. pose proof (answered_names f s FS A) as N. pose proof (answered_names f s' FS A') as N'. apply find_values; [|congruence|].
  - rewrite N. exact (fr_columns f (fs_rules f FS)).
  - intros c C. rewrite N in C. exact (U _ _ (proj1 (answered_right f _ FS A')) (proj1 (answered_right f _ FS A)) c C).
Qed.
Lemma one_optimum_renamed row column f f' s s' : file_solvable f -> file_solvable f' -> answered f (Solved_to s) -> answered f' (Solved_to s') -> renamed row column f f' -> only_optimum f ->
  forall c, In c (names_of_columns f) -> answer_at s' (column c) = answer_at s c.
Proof.
  intros FS FS' A A' RN U c C. destruct (answered_right f' _ FS' A') as [[X' O'] _]. destruct (answered_right f _ FS A) as [O _].
  apply (U (fun c => answer_at s' (column c)) (answer_at s)); [|exact O|exact C]. pose proof (fs_rules f FS) as OK. split.
  - now apply (renamed_feasible row column f f' OK RN _ (answer_at s') (fun c _ => eq_refl)).
  - intros y Y. rewrite <- (renamed_fcost row column f f' OK RN _ (answer_at s') (fun c _ => eq_refl)), <- (rn_sense _ _ _ _ RN).
    rewrite <- (renamed_fcost row column f f' OK RN y (carried column f y) (carried_at row column f f' RN y)). apply O'.
    now apply (renamed_feasible row column f f' OK RN y (carried column f y) (carried_at row column f f' RN y)).
Qed.

(** ** Constraints that say nothing new *)
Lemma implied f f' a a' : file_solvable f -> file_solvable f' -> answered f a -> answered f' a' -> relaxed f f' -> (forall x, ffeasible f' x -> ffeasible f x) -> outcome_of f' a' = outcome_of f a.
Proof.
  intros FS FS' A A' RX F. apply same_outcome; try assumption; [exact (relaxed_dominates f f' (fs_rules f' FS') RX)|].
  split; [symmetry; exact (rx_sense _ _ RX)|]. intros x X. exists x. split; [now apply F|]. rewrite (relaxed_cost f f' (fs_rules f' FS') RX). apply better_refl.
Qed.

(** ** Other units of a variable *)
Lemma bound_units k t x : 0 < k -> t <> Binary -> allows (scale_bound k t) (x / k) <-> allows t x.
Proof.
  intros K NB. assert (Z : k <> 0) by (intros ->; discriminate K).
  assert (L : forall a b, a / k <= b / k <-> a <= b).
  { intros a b. rewrite <- (plain_scale KLess k (b / k) (a / k) K). cbn. replace (k * (a / k)) with a by (field; exact Z). replace (k * (b / k)) with b by (field; exact Z). reflexivity. }
  assert (E : forall a b, a / k = b / k <-> a = b).
  { intros a b. split; [|now intros ->]. intros H. apply Qcle_antisym; apply L; rewrite H; apply Qcle_refl. }
  assert (O : 0 / k = 0) by (field; exact Z).
  destruct t; cbn [scale_bound allows].
  - apply L.
  - apply L.
  - apply E.
  - reflexivity.
  - rewrite <- O at 1. apply L.
  - rewrite <- O at 1. apply L.
  - congruence.
  - apply L.
  - apply L.
  - rewrite <- O at 1. now rewrite E, !L.
Qed.
Lemma lower_units k t : leaves_lower (scale_bound k t) <-> leaves_lower t.
Proof. destruct t; reflexivity. Qed.
Section Units.
Variables (k : Qc) (col : string) (f : file).
Hypothesis K : 0 < k.
Hypothesis NB : forall g, ~ In (Binary, g, col) (f_bounds f).
Let f' := scale_column k col f.
Let K0 : k <> 0.
Proof. intros E. rewrite E in K. discriminate K. Qed.
Lemma units_columns : columns_of f' = columns_of f.
Proof.
  unfold columns_of. cbn [f' scale_column f_columns]. generalize false, (@None string). induction (f_columns f) as [|[c values| |] l IH]; intros z o; cbn [map columns_from]; rewrite ?IH; reflexivity.
Qed.
Lemma units_coefficients : coefficients f' = map (fun '(c, r, v) => (c, r, if String.eqb c col then k * v else v)) (coefficients f).
Proof.
  unfold coefficients. cbn [f' scale_column f_columns]. induction (f_columns f) as [|[c values| |] l IH]; [reflexivity| | |]; cbn [map flat_map app]; [|exact IH|exact IH].
  rewrite map_app, IH. f_equal. destruct (String.eqb c col) eqn:E; rewrite !map_map; apply map_ext; intros [r v]; now rewrite E.
Qed.
Lemma units_value x r : frow_value f' (in_units k col x) r = frow_value f x r.
Proof.
  unfold frow_value. rewrite units_coefficients, map_map. f_equal. apply map_ext. intros [[c r'] v]. destruct (String.eqb r' r); [|reflexivity]. unfold in_units. destruct (String.eqb c col); [field; exact K0|reflexivity].
Qed.
Lemma units_allowed c x : fallowed f' c (in_units k col (fun _ => x) c) <-> fallowed f c x.
Proof.
  unfold fallowed, in_units. cbn [f' scale_column f_bounds].
  assert (J : forall t g, In (t, g, c) (f_bounds f) -> In (if String.eqb c col then scale_bound k t else t, g, c) (map (fun '(t, g, c) => (if String.eqb c col then scale_bound k t else t, g, c)) (f_bounds f))).
  { intros t g I. apply in_map_iff. now exists (t, g, c). }
  assert (J' : forall t g, In (t, g, c) (map (fun '(t, g, c) => (if String.eqb c col then scale_bound k t else t, g, c)) (f_bounds f)) -> exists t0, In (t0, g, c) (f_bounds f) /\ t = if String.eqb c col then scale_bound k t0 else t0).
  { intros t g I. apply in_map_iff in I. destruct I as ([[t0 g0] c0] & E & I). assert (E1 : c0 = c) by congruence. subst c0. exists t0. split; congruence. }
  destruct (String.eqb_spec c col) as [->|NE].
  - assert (B : forall t g, In (t, g, col) (f_bounds f) -> t <> Binary) by (intros t g I ->; exact (NB g I)).
    assert (P : 0 <= x / k <-> 0 <= x). { rewrite <- (bound_units k UpperInfinity x K) by discriminate. reflexivity. }
    split; intros [A L]; split.
    + intros t g I. apply (bound_units k t x K (B t g I)). exact (A _ g (J t g I)).
    + intros H. apply P, L. intros t g I. destruct (J' t g I) as (t0 & I0 & ->). apply lower_units. exact (H t0 g I0).
    + intros t g I. destruct (J' t g I) as (t0 & I0 & ->). apply (bound_units k t0 x K (B t0 g I0)). exact (A t0 g I0).
    + intros H. apply P, L. intros t g I. apply (lower_units k). exact (H _ g (J t g I)).
  - split; intros [A L]; split.
    + intros t g I. exact (A _ g (J t g I)).
    + intros H. apply L. intros t g I. destruct (J' t g I) as (t0 & I0 & ->). exact (H t0 g I0).
    + intros t g I. destruct (J' t g I) as (t0 & I0 & ->). exact (A t0 g I0).
    + intros H. apply L. intros t g I. exact (H _ g (J t g I)).
Qed.
Lemma units_feasible x : ffeasible f' (in_units k col x) <-> ffeasible f x.
Proof.
  unfold ffeasible. rewrite units_columns. change (f_rows f') with (f_rows f). split; intros [A B]; split.
  - intros kd r I. specialize (A kd r I). rewrite units_value in A. exact A.
  - intros c C. apply (units_allowed c (x c)). exact (B c C).
  - intros kd r I. rewrite units_value. exact (A kd r I).
  - intros c C. apply (units_allowed c (x c)). exact (B c C).
Qed.
Lemma units_cost x : fcost f' (in_units k col x) = fcost f x.
Proof. exact (units_value x (cost_row f)). Qed.
Definition old_units (x : valuation) : valuation := fun c => if String.eqb c col then k * x c else x c.
Lemma same_values g x y : (forall c, x c = y c) -> (ffeasible g x -> ffeasible g y) /\ fcost g x = fcost g y.
Proof.
  intros E. assert (V : forall r, frow_value g x r = frow_value g y r). { intros r. unfold frow_value. f_equal. apply map_ext. intros [[c r'] v]. now rewrite E. }
  split; [|apply V]. intros [A B]. split; [intros kd r I; rewrite <- V; now apply A|intros c C; rewrite <- E; now apply B].
Qed.
Lemma units_old x' : (ffeasible f' x' <-> ffeasible f (old_units x')) /\ fcost f' x' = fcost f (old_units x').
Proof.
  assert (E : forall c, in_units k col (old_units x') c = x' c). { intros c. unfold in_units, old_units. destruct (String.eqb c col); [field; exact K0|reflexivity]. }
  rewrite <- (units_feasible (old_units x')), <- (units_cost (old_units x')). split; [|symmetry; now apply same_values].
  split; apply same_values; [intros c; symmetry; apply E|exact E].
Qed.
Lemma units_dominates : dominates f' f.
Proof. split; [reflexivity|]. intros x X. exists (in_units k col x). split; [now apply units_feasible|]. rewrite units_cost. apply better_refl. Qed.
Lemma units_dominated : dominates f f'.
Proof. split; [reflexivity|]. intros x X. exists (old_units x). destruct (units_old x) as [F C]. split; [now apply F|]. rewrite C. apply better_refl. Qed.
(** an answer in the new units is an optimum in the old ones *)
Lemma units_optimal x' : foptimal f' x' -> foptimal f (old_units x').
Proof.
  intros [X O]. destruct (units_old x') as [F C]. split; [now apply F|]. intros y Y. rewrite <- C, <- (units_cost y). change (fsense f) with (fsense f'). apply O. now apply units_feasible.
Qed.
End Units.
Lemma other_units k col f a a' : 0 < k -> (forall g, ~ In (Binary, g, col) (f_bounds f)) -> file_solvable f -> file_solvable (scale_column k col f) -> answered f a -> answered (scale_column k col f) a' ->
  outcome_of (scale_column k col f) a' = outcome_of f a.
Proof. intros K NB FS FS' A A'. apply same_outcome; try assumption; [now apply units_dominates|now apply units_dominated]. Qed.
Lemma one_optimum_units k col f s s' : 0 < k -> (forall g, ~ In (Binary, g, col) (f_bounds f)) -> file_solvable f -> file_solvable (scale_column k col f) -> answered f (Solved_to s) -> answered (scale_column k col f) (Solved_to s') ->
  only_optimum f -> forall c, In c (names_of_columns f) -> answer_at s' c = in_units k col (answer_at s) c.
Proof.
  intros K NB FS FS' A A' U c C. assert (K0 : k <> 0) by (intros ->; discriminate K). destruct (answered_right _ _ FS' A') as [O' _]. destruct (answered_right f _ FS A) as [O _].
  pose proof (U _ _ (units_optimal k col f K NB _ O') O c C) as E. unfold in_units. rewrite <- E. unfold old_units. destruct (String.eqb c col); [field; exact K0|reflexivity].
Qed.
(** a file whose units changed is still one of a linear program *)
Lemma units_solvable k col f : 0 < k -> (forall g, ~ In (Binary, g, col) (f_bounds f)) -> file_solvable f -> file_solvable (scale_column k col f).
Proof.
  intros K NB FS. assert (K0 : k <> 0) by (intros ->; discriminate K). pose proof (fs_rules f FS) as OK.
  assert (B' : forall t g c, In (t, g, c) (f_bounds (scale_column k col f)) -> exists t0, In (t0, g, c) (f_bounds f) /\ t = if String.eqb c col then scale_bound k t0 else t0).
  { intros t g c I. cbn [scale_column f_bounds] in I. apply in_map_iff in I. destruct I as ([[t0 g0] c0] & E & I). assert (E1 : c0 = c) by congruence. subst c0. exists t0. split; congruence. }
  assert (C' : forall c r v, In (c, r, v) (coefficients (scale_column k col f)) -> exists v0, In (c, r, v0) (coefficients f) /\ v = if String.eqb c col then k * v0 else v0).
  { intros c r v I. rewrite units_coefficients in I. apply in_map_iff in I. destruct I as ([[c0 r0] v0] & E & I). assert (E1 : c0 = c) by congruence. subst c0. exists v0. split; congruence. }
  constructor; [constructor| | | | |].
  - exact (fr_rows f OK).
  - rewrite units_columns. exact (fr_columns f OK).
  - rewrite units_coefficients, map_map. replace (map _ (coefficients f)) with (map fst (coefficients f)); [exact (fr_coefficients f OK)|]. apply map_ext. now intros [[c r] v].
  - exact (fr_rhs f OK).
  - exact (fr_ranges f OK).
  - intros t g c I. destruct (B' t g c I) as (t0 & I0 & ->). pose proof (fr_bound_types f OK t0 g c I0) as N. destruct (String.eqb c col); [|exact N]. destruct t0; exact N.
  - exact (fr_cost f OK).
  - intros c r v I. destruct (C' c r v I) as (v0 & I0 & _). exact (fr_coefficient_rows f OK c r v0 I0).
  - exact (fr_rhs_rows f OK).
  - exact (fr_range_rows f OK).
  - intros t g c I. destruct (B' t g c I) as (t0 & I0 & _). rewrite units_columns. exact (fr_bound_columns f OK t0 g c I0).
  - intros c r v I. destruct (C' c r v I) as (v0 & I0 & ->). pose proof (fs_coefficients f FS c r v0 I0) as N. destruct (String.eqb c col); [|exact N].
    intros E. apply Qcmult_integral in E. tauto.
  - exact (fs_one_rhs f FS).
  - exact (fs_ranges f FS).
  - intros t g g' c I I'. destruct (B' _ g c I) as (t0 & I0 & E0), (B' _ g' c I') as (t1 & I1 & E1).
    assert (F : t0 = Free). { destruct (String.eqb c col); [|now symmetry]. destruct t0; try discriminate E0. reflexivity. }
    subst t0. rewrite (fs_free f FS t1 g g' c I0 I1) in E1. subst t. now destruct (String.eqb c col).
  - intros c C. rewrite units_columns in C. destruct (fs_domain f FS c C) as [x X]. exists (in_units k col (fun _ => x) c). now apply units_allowed.
Qed.

(** ** Another variable instead of one *)
Lemma plain_shift kd b v s : plain_holds kd (b - s) (v - s) <-> plain_holds kd b v.
Proof. destruct kd; cbn; split; intros H; qlra. Qed.
Lemma range_shift kd b w v s : range_holds kd (b - s) w (v - s) <-> range_holds kd b w v.
Proof. unfold range_holds. destruct kd, (qneg w); split; intros [L U]; split; qlra. Qed.
Section Substituted.
Variables (k t : Qc) (col : string) (f f' : file).
Hypothesis K : k <> 0.
Hypothesis SB : substituted k t col f f'.
(** values of the columns of [f] from values of those of [f'], and back *)
Definition before (x' : valuation) : valuation := fun c => if String.eqb c col then k * x' c + t else x' c.
Definition after (x : valuation) : valuation := fun c => if String.eqb c col then (x c - t) / k else x c.
Lemma before_after x c : before (after x) c = x c.
Proof using K. clear SB. unfold before, after. destruct (String.eqb c col); [field; exact K|reflexivity]. Qed.
Lemma substituted_value x' r : frow_value f' x' r = frow_value f (before x') r - coefficient_of f r col * t.
Proof using SB. clear K.
  unfold frow_value, coefficient_of. rewrite (sb_coefficients _ _ _ _ _ SB), map_map. unfold total. clear SB. induction (coefficients f) as [|[[c r'] v] l IH]; cbn [map fold_right]; [ring|]. rewrite IH. unfold before.
  destruct (String.eqb r' r), (String.eqb c col); ring.
Qed.
Lemma substituted_holds kd r v : In (Some kd, r) (f_rows f) -> frow_holds f' kd r (v - coefficient_of f r col * t) <-> frow_holds f kd r v.
Proof using SB. clear K.
  intros I. set (s := coefficient_of f r col * t). assert (R : forall b, frhs f' r (b - s) <-> frhs f r b) by (intros b; exact (sb_rhs _ _ _ _ _ SB kd r b I)).
  unfold frow_holds. split; intros H b B.
  - destruct (H _ (proj2 (R b) B)) as [P Q]. split.
    + intros N. apply (plain_shift kd b v s), P. intros w W. exact (N w (proj1 (sb_ranges _ _ _ _ _ SB r w) W)).
    + intros w W. apply (range_shift kd b w v s), Q. exact (proj2 (sb_ranges _ _ _ _ _ SB r w) W).
  - assert (E : b = (b + s) - s) by ring. rewrite E in B. apply R in B. rewrite E. destruct (H _ B) as [P Q]. split.
    + intros N. apply plain_shift, P. intros w W. exact (N w (proj2 (sb_ranges _ _ _ _ _ SB r w) W)).
    + intros w W. apply range_shift, Q. exact (proj1 (sb_ranges _ _ _ _ _ SB r w) W).
Qed.
Lemma substituted_feasible x' : ffeasible f' x' <-> ffeasible f (before x').
Proof using SB. clear K.
  assert (A : forall c, In c (names_of_columns f) -> fallowed f' c (x' c) <-> fallowed f c (before x' c)) by (intros c C; exact (sb_allowed _ _ _ _ _ SB c (x' c) C)).
  unfold ffeasible. rewrite (sb_rows _ _ _ _ _ SB). split; intros [P Q]; split.
  - intros kd r I. apply (substituted_holds kd r _ I). rewrite <- substituted_value. exact (P kd r I).
  - intros c C. apply (A c C), Q. now apply (sb_columns _ _ _ _ _ SB).
  - intros kd r I. rewrite substituted_value. apply (substituted_holds kd r _ I). exact (P kd r I).
  - intros c C. apply (sb_columns _ _ _ _ _ SB) in C. apply (A c C), Q, C.
Qed.
Lemma substituted_cost x' : fcost f' x' = fcost f (before x') - coefficient_of f (cost_row f) col * t.
Proof using SB. clear K. unfold fcost. replace (cost_row f') with (cost_row f); [apply substituted_value|]. unfold cost_row. now rewrite (sb_rows _ _ _ _ _ SB). Qed.
Lemma substituted_back x : ffeasible f x -> ffeasible f' (after x) /\ fcost f' (after x) = fcost f x - coefficient_of f (cost_row f) col * t.
Proof using K SB.
  intros X. rewrite substituted_feasible, substituted_cost. destruct (same_values f x (before (after x)) (fun c => eq_sym (before_after x c))) as [F C]. split; [exact (F X)|now rewrite C].
Qed.
Lemma substituted_optimal x' : foptimal f' x' -> foptimal f (before x').
Proof using K SB.
  intros [X O]. split; [now apply substituted_feasible|]. intros y Y. destruct (substituted_back y Y) as [Y' C]. specialize (O _ Y'). rewrite C, substituted_cost, (sb_sense _ _ _ _ _ SB) in O.
  destruct (fsense f); cbn in *; qlra.
Qed.
Lemma substituted_outcome a a' : right f a -> right f' a' -> outcome_of f' a' = shifted (coefficient_of f (cost_row f) col * t) (outcome_of f a).
Proof using K SB.
  set (s := coefficient_of f (cost_row f) col * t). intros R R'. pose proof (sb_sense _ _ _ _ _ SB) as SE. destruct a as [z| |], a' as [z'| |]; cbn [outcome_of shifted]; try reflexivity.
  - destruct R as [[X O] _], R' as [O' _]. pose proof (substituted_optimal _ O') as [B OB]. f_equal. rewrite substituted_cost. fold s. f_equal. apply (better_antisym (fsense f)); [now apply OB|now apply O].
  - exfalso. destruct R as [[X _] _]. exact (R' _ (proj1 (substituted_back _ X))).
  - exfalso. destruct R as [[X O] _], R' as [_ U]. destruct (U (fcost f (answer_at z) - s)) as (y & Y & L). specialize (O _ (proj1 (substituted_feasible y) Y)). rewrite substituted_cost, SE in L. fold s in L.
    destruct (fsense f); cbn in O; qlra.
  - exfalso. destruct R' as [[X _] _]. exact (R _ (proj1 (substituted_feasible _) X)).
  - exfalso. destruct R' as [[x X] _]. exact (R _ (proj1 (substituted_feasible _) X)).
  - exfalso. destruct R' as [[X O] _], R as [_ U]. destruct (U (fcost f' (answer_at z') + s)) as (y & Y & L). destruct (substituted_back y Y) as [Y' C]. specialize (O _ Y'). rewrite C, SE in O. fold s in O.
    destruct (fsense f); cbn in O; qlra.
  - exfalso. destruct R as [[x X] _]. exact (R' _ (proj1 (substituted_back _ X))).
Qed.
End Substituted.
Lemma substitution k t col f f' a a' : k <> 0 -> file_solvable f -> file_solvable f' -> answered f a -> answered f' a' -> substituted k t col f f' ->
  outcome_of f' a' = shifted (coefficient_of f (cost_row f) col * t) (outcome_of f a).
Proof. intros K FS FS' A A' SB. apply (substituted_outcome k t col f f' K SB); now apply answered_right. Qed.
Lemma one_optimum_substituted k t col f f' s s' : k <> 0 -> file_solvable f -> file_solvable f' -> answered f (Solved_to s) -> answered f' (Solved_to s') -> substituted k t col f f' -> only_optimum f ->
  forall c, In c (names_of_columns f) -> answer_at s c = if String.eqb c col then k * answer_at s' c + t else answer_at s' c.
Proof.
  intros K FS FS' A A' SB U c C. destruct (answered_right _ _ FS' A') as [O' _]. destruct (answered_right f _ FS A) as [O _].
  exact (U _ _ O (substituted_optimal k t col f f' K SB _ O') c C).
Qed.
