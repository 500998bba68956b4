(** * Proofs: prices of constraints *)
From Verif Require Import SpecPrice TextSolveP FixedP FDualP OrderP PairP MixP.
Local Open Scope Qc_scope.
Open Scope list_scope.

Lemma toward_add d a b : toward d (a + b) = toward d a + toward d b. Proof. destruct d; cbn; ring. Qed.
Lemma toward_sub d a b : toward d (a - b) = toward d a - toward d b. Proof. destruct d; cbn; ring. Qed.
Lemma toward_mul d a b : toward d (a * b) = toward d a * b. Proof. destruct d; cbn; ring. Qed.
Lemma toward_twice d a : toward d (toward d a) = a. Proof. destruct d; cbn; ring. Qed.
Lemma toward_total (A : Type) d (h : A -> Qc) l : toward d (total (map h l)) = total (map (fun a => toward d (h a)) l).
Proof. induction l as [|a l IH]; [destruct d; unfold total; cbn; ring|]. now rewrite !total_cons, toward_add, IH. Qed.
Lemma toward_better d a b : better d a b <-> toward d a <= toward d b.
Proof. destruct d; cbn; split; intros H; qlra. Qed.
Lemma sign_cases (a : Qc) : 0 < a \/ a = 0 \/ 0 < - a.
Proof. destruct (Qclt_le_dec 0 a) as [L|L]; [now left|]. right. destruct (Qclt_le_dec a 0) as [M|M]; [right; qlra|left; qlra]. Qed.
Lemma product_nonneg (a b : Qc) : 0 <= a -> 0 <= b -> 0 <= a * b.
Proof. intros A B. rewrite <- (Qcmult_0_l b). now apply Qcmult_le_compat_r. Qed.
(** what a move in an allowed direction does *)
Lemma move_nonneg (p t : Qc) : (0 < t -> 0 <= p) -> (0 < - t -> p <= 0) -> 0 <= p * t.
Proof.
  intros U D. destruct (sign_cases t) as [H|[->|H]].
  - apply product_nonneg; [now apply U|now apply Qclt_le_weak].
  - rewrite Qcmult_0_r. apply Qcle_refl.
  - specialize (D H). replace (p * t) with ((- p) * (- t)) by ring. apply product_nonneg; qlra.
Qed.
Lemma move_up (p e : Qc) : 0 < e -> 0 <= p * e -> 0 <= p.
Proof. intros E H. apply Qcnot_lt_le. intros L. assert (K : 0 < (- p) * e) by (rewrite <- (Qcmult_0_l e); apply Qcmult_lt_compat_r; [exact E|qlra]). assert (X : (- p) * e = - (p * e)) by ring. rewrite X in K. qlra. Qed.

(** ** Prices are sums of products *)
Section Sum.
Variable f : file.
Hypothesis ND : NoDup (column_names_of f).
Lemma cost_split y x : fcost f x = total (map (fun r => y r * frow_value f x r) (constraint_names f)) + total (map (fun c => beyond f y c * x c) (column_names_of f)).
Proof using ND.
  unfold fcost at 1. rewrite (value_sum f x (cost_row f) ND).
  rewrite (total_ext _ (fun r => y r * frow_value f x r) (fun r => total (map (fun c => y r * (x c * frow_value f (only c) r)) (column_names_of f)))) by (intros r _; rewrite (value_sum f x r ND); symmetry; apply total_mul).
  rewrite total_swap, <- total_add. apply total_ext. intros c _. unfold beyond, fcost.
  rewrite (total_ext _ (fun r => y r * (x c * frow_value f (only c) r)) (fun r => x c * (y r * frow_value f (only c) r))) by (intros; ring). rewrite total_mul. ring.
Qed.
Lemma total_sub (A : Type) (h k : A -> Qc) l : total (map (fun a => h a - k a) l) = total (map h l) - total (map k l).
Proof using. induction l as [|a l IH]; [unfold total; cbn; ring|]. rewrite !total_cons, IH. ring. Qed.
Lemma cost_move y x x' : fcost f x' - fcost f x = total (map (fun r => y r * (frow_value f x' r - frow_value f x r)) (constraint_names f)) + total (map (fun c => beyond f y c * (x' c - x c)) (column_names_of f)).
Proof using ND.
  rewrite (cost_split y x), (cost_split y x').
  rewrite (total_ext _ (fun r => y r * (frow_value f x' r - frow_value f x r)) (fun r => y r * frow_value f x' r - y r * frow_value f x r)) by (intros; ring).
  rewrite (total_ext _ (fun c => beyond f y c * (x' c - x c)) (fun c => beyond f y c * x' c - beyond f y c * x c)) by (intros; ring). rewrite !total_sub. ring.
Qed.
End Sum.

(** ** Prices prove optima, with other right-hand sides too *)
Section Prices.
Variable f : file.
Hypothesis ND : NoDup (column_names_of f).
Variables x y : valuation.
Hypothesis P : priced f x y.
Lemma row_move k r z : In (Some k, r) (f_rows f) -> frow_holds f k r z -> 0 <= toward (fsense f) (y r) * (z - frow_value f x r).
Proof using P.
  intros I H. apply move_nonneg; intros T.
  - apply (pr_row_up _ _ _ P k r _ I T). replace (frow_value f x r + (z - frow_value f x r)) with z by ring. exact H.
  - apply (pr_row_down _ _ _ P k r _ I T). replace (frow_value f x r - - (z - frow_value f x r)) with z by ring. exact H.
Qed.
Lemma column_move c z : In c (column_names_of f) -> fallowed f c z -> 0 <= toward (fsense f) (beyond f y c) * (z - x c).
Proof using P.
  intros I H. apply move_nonneg; intros T.
  - apply (pr_column_up _ _ _ P c _ I T). replace (x c + (z - x c)) with z by ring. exact H.
  - apply (pr_column_down _ _ _ P c _ I T). replace (x c - - (z - x c)) with z by ring. exact H.
Qed.
Lemma priced_far x' (b b2 : valuation) : (forall k r, In (Some k, r) (f_rows f) -> frow_holds f k r (frow_value f x' r - (b2 r - b r))) -> (forall c, In c (column_names_of f) -> fallowed f c (x' c)) ->
  toward (fsense f) (fcost f x + expected_change f y b b2) <= toward (fsense f) (fcost f x').
Proof using P ND.
  intros R C. set (d := fsense f).
  assert (E : toward d (fcost f x') - toward d (fcost f x + expected_change f y b b2) =
    total (map (fun r => toward d (y r) * ((frow_value f x' r - (b2 r - b r)) - frow_value f x r)) (constraint_names f)) + total (map (fun c => toward d (beyond f y c) * (x' c - x c)) (column_names_of f))).
  { replace (fcost f x') with (fcost f x + (fcost f x' - fcost f x)) by ring. rewrite (cost_move f ND y x x'). unfold expected_change. rewrite !toward_add, !toward_total.
    rewrite (total_ext _ (fun r => toward d (y r) * ((frow_value f x' r - (b2 r - b r)) - frow_value f x r)) (fun r => toward d (y r * (frow_value f x' r - frow_value f x r)) - toward d (y r * (b2 r - b r)))) by (intros; rewrite !toward_mul; ring).
    rewrite total_sub. rewrite (total_ext _ (fun c => toward d (beyond f y c) * (x' c - x c)) (fun c => toward d (beyond f y c * (x' c - x c)))) by (intros; rewrite toward_mul; reflexivity). ring. }
  assert (N1 : 0 <= total (map (fun r => toward d (y r) * ((frow_value f x' r - (b2 r - b r)) - frow_value f x r)) (constraint_names f))).
  { apply total_nonneg. intros r I. destruct (constraint_in f r I) as [k K]. exact (row_move k r _ K (R k r K)). }
  assert (N2 : 0 <= total (map (fun c => toward d (beyond f y c) * (x' c - x c)) (column_names_of f))).
  { apply total_nonneg. intros c I. exact (column_move c _ I (C c I)). }
  revert E N1 N2. generalize (total (map (fun r => toward d (y r) * ((frow_value f x' r - (b2 r - b r)) - frow_value f x r)) (constraint_names f))), (total (map (fun c => toward d (beyond f y c) * (x' c - x c)) (column_names_of f))).
  generalize (toward d (fcost f x')), (toward d (fcost f x + expected_change f y b b2)). intros. qlra.
Qed.
Lemma no_change b : expected_change f y b b = 0.
Proof using. unfold expected_change. rewrite (total_ext _ _ (fun r => 0 * y r)) by (intros; ring). rewrite total_mul. ring. Qed.
Lemma priced_optimal : ffeasible f x -> foptimal f x.
Proof using P ND.
  intros X. split; [exact X|]. intros x' [R C]. apply toward_better. rewrite <- (Qcplus_0_r (fcost f x)), <- (no_change x). apply priced_far; [|exact C].
  intros k r I. replace (frow_value f x' r - (x r - x r)) with (frow_value f x' r) by ring. exact (R k r I).
Qed.
End Prices.

(** ** Every optimum has prices *)
Lemma optimum_priced f x y d : NoDup (column_names_of f) -> file_rules f -> fproves_bound f y d (fcost f x) -> ffeasible f x -> priced f x (fun r => toward (fsense f) (y r)).
Proof.
  intros ND FR (rows & vars & E & R & V & T) [X C]. set (s := fsense f) in *.
  assert (D : forall c, In c (column_names_of f) -> toward s (beyond f (fun r => toward s (y r)) c) = d c).
  { intros c I. unfold beyond. rewrite toward_sub, toward_total, (E (only c)). rewrite (total_ext _ (fun r => toward s (toward s (y r) * frow_value f (only c) r)) (fun r => y r * frow_value f (only c) r)) by (intros; now rewrite toward_mul, toward_twice).
    rewrite (total_only (column_names_of f) d c ND I). ring. }
  assert (R' : forall k r, In (Some k, r) (f_rows f) -> 0 <= y r * frow_value f x r - rows r) by (intros k r I; specialize (R k r I _ (X k r I)); qlra).
  assert (V' : forall c, In c (column_names_of f) -> 0 <= d c * x c - vars c) by (intros c I; specialize (V c I _ (C c I)); qlra).
  assert (S1 : 0 <= total (map (fun r => y r * frow_value f x r - rows r) (constraint_names f))) by (apply total_nonneg; intros r I; destruct (constraint_in f r I) as [k K]; exact (R' k r K)).
  assert (S2 : 0 <= total (map (fun c => d c * x c - vars c) (column_names_of f))) by (apply total_nonneg; intros c I; exact (V' c I)).
  assert (S : total (map (fun r => y r * frow_value f x r - rows r) (constraint_names f)) + total (map (fun c => d c * x c - vars c) (column_names_of f)) = 0).
  { rewrite !total_sub. specialize (E x). rewrite <- T in E. revert E. generalize (total (map (fun r => y r * frow_value f x r) (constraint_names f))), (total (map (fun c => d c * x c) (column_names_of f))), (total (map rows (constraint_names f))), (total (map vars (column_names_of f))). intros. qlra. }
  assert (Z1 : total (map (fun r => y r * frow_value f x r - rows r) (constraint_names f)) = 0) by (revert S S1 S2; generalize (total (map (fun r => y r * frow_value f x r - rows r) (constraint_names f))), (total (map (fun c => d c * x c - vars c) (column_names_of f))); intros; qlra).
  assert (Z2 : total (map (fun c => d c * x c - vars c) (column_names_of f)) = 0) by (rewrite Z1 in S; rewrite <- S; ring).
  assert (ER : forall k r, In (Some k, r) (f_rows f) -> rows r = y r * frow_value f x r).
  { intros k r I. assert (IN : In r (constraint_names f)) by (apply constraint_named; now exists k).
    pose proof (total_terms _ (fun r => y r * frow_value f x r - rows r) (constraint_names f) ltac:(intros r' I'; destruct (constraint_in f r' I') as [k' K]; exact (R' k' r' K)) Z1 r IN) as H. cbn beta in H. qlra. }
  assert (EV : forall c, In c (column_names_of f) -> vars c = d c * x c).
  { intros c I. pose proof (total_terms _ (fun c => d c * x c - vars c) (column_names_of f) V' Z2 c I) as H. cbn beta in H. qlra. }
  constructor.
  - intros k r e I P H. fold s. rewrite toward_twice. specialize (R k r I _ H). rewrite (ER k r I) in R. apply (move_up _ e P). replace (y r * (frow_value f x r + e)) with (y r * frow_value f x r + y r * e) in R by ring. qlra.
  - intros k r e I P H. fold s. rewrite toward_twice. specialize (R k r I _ H). rewrite (ER k r I) in R. assert (M : 0 <= - y r); [|qlra]. apply (move_up _ e P). replace (y r * (frow_value f x r - e)) with (y r * frow_value f x r + - y r * e) in R by ring. qlra.
  - intros c e I P H. fold s. rewrite (D c I). specialize (V c I _ H). rewrite (EV c I) in V. apply (move_up _ e P). replace (d c * (x c + e)) with (d c * x c + d c * e) in V by ring. qlra.
  - intros c e I P H. fold s. rewrite (D c I). specialize (V c I _ H). rewrite (EV c I) in V. assert (M : 0 <= - d c); [|qlra]. apply (move_up _ e P). replace (d c * (x c - e)) with (d c * x c + - d c * e) in V by ring. qlra.
Qed.
Lemma answer_priced f s : file_solvable f -> answered f (Solved_to s) -> exists y, priced f (answer_at s) y.
Proof.
  intros FS A. destruct (answered_right f _ FS A) as [O _]. destruct (answered_certified f FS _ A) as [CE _]. destruct (CE _ O) as (y & d & B). exists (fun r => toward (fsense f) (y r)).
  exact (optimum_priced f _ y d (fr_columns f (fs_rules f FS)) (fs_rules f FS) B (proj1 O)).
Qed.

(** ** Answers with other right-hand sides *)
Lemma holds_shifted f f2 k r z (b b2 : valuation) : file_solvable f -> other_rhs f f2 -> frhs f r (b r) -> frhs f2 r (b2 r) -> frow_holds f2 k r z -> frow_holds f k r (z - (b2 r - b r)).
Proof.
  intros FS O B B2 H b' B'. rewrite (rhs_unique f r b' (b r) FS B' B). destruct (H _ B2) as [P R]. unfold frange in *. rewrite (or_ranges _ _ O) in P, R. split.
  - intros N. specialize (P N). destruct k; cbn in *; [qlra|rewrite P; ring|qlra].
  - intros w W. specialize (R w W). destruct k; cbn in *; [| |]; try (destruct (qneg w)); destruct R; split; qlra.
Qed.
Lemma same_cost f f2 x : other_rhs f f2 -> fcost f2 x = fcost f x /\ forall r, frow_value f2 x r = frow_value f x r.
Proof. intros O. unfold fcost, frow_value, cost_row, coefficients. now rewrite (or_columns _ _ O), (or_rows _ _ O). Qed.
Lemma prices_hold f f2 s y b b2 a2 : file_solvable f -> file_solvable f2 -> answered f (Solved_to s) -> priced f (answer_at s) y -> other_rhs f f2 ->
  (forall r, is_constraint f r -> frhs f r (b r)) -> (forall r, is_constraint f r -> frhs f2 r (b2 r)) -> answered f2 a2 ->
  no_worse (fsense f) (Value (fcost f (answer_at s) + expected_change f y b b2)) (outcome_of f2 a2).
Proof.
  intros FS FS2 A P O B B2 A2. apply (answered_right _ _ FS2) in A2.
  assert (L : forall x, ffeasible f2 x -> toward (fsense f) (fcost f (answer_at s) + expected_change f y b b2) <= toward (fsense f) (fcost f2 x)).
  { intros x [R C]. rewrite (proj1 (same_cost f f2 x O)). apply (priced_far f (fr_columns f (fs_rules f FS)) _ y P).
    - intros k r I. rewrite <- (proj2 (same_cost f f2 x O)). apply (holds_shifted f f2 k r _ b b2 FS O); [apply B; now exists k|apply B2; now exists k|]. apply R. now rewrite (or_rows _ _ O).
    - intros c I. unfold column_names_of, columns_of, fallowed in *. rewrite (or_columns _ _ O), (or_bounds _ _ O) in C. exact (C c I). }
  destruct a2 as [s2| |]; cbn [OrderP.right outcome_of no_worse] in *.
  - apply toward_better. exact (L _ (proj1 (proj1 A2))).
  - exact I.
  - destruct A2 as [_ U]. destruct (U (fcost f (answer_at s) + expected_change f y b b2)) as (x & X & H). specialize (L x X). rewrite (or_sense _ _ O) in H. destruct (fsense f); cbn in L; qlra.
Qed.

(** ** One more column *)
Lemma no_row_value f x r : file_rules f -> ~ In r (names_of_rows f) -> frow_value f x r = 0.
Proof.
  intros R N. unfold frow_value. rewrite (total_ext _ _ (fun _ => 0 * 0)); [rewrite total_mul; ring|]. intros [[c r'] v] I. destruct (String.eqb_spec r' r) as [->|_]; [|ring].
  elim N. exact (fr_coefficient_rows f R c r v I).
Qed.
Section Extra.
Variables (c : string) (f f2 : file).
Hypothesis FS : file_solvable f.
Hypothesis FS2 : file_solvable f2.
Hypothesis E : extra_column c f f2.
Definition without (x : valuation) : valuation := fun n => if String.eqb n c then 0 else x n.
Lemma without_other x n : In n (column_names_of f) -> without x n = x n.
Proof using E. intros I. unfold without. destruct (String.eqb_spec n c) as [->|]; [elim (ec_new _ _ _ E I)|reflexivity]. Qed.
Lemma without_new x : without x c = 0.
Proof using. unfold without. now rewrite String.eqb_refl. Qed.
Lemma extra_total (h : string -> Qc) : total (map h (column_names_of f2)) = h c + total (map h (column_names_of f)).
Proof using FS FS2 E.
  rewrite <- total_cons. apply total_perm, Permutation_map, NoDup_Permutation.
  - exact (fr_columns f2 (fs_rules f2 FS2)).
  - constructor; [exact (ec_new _ _ _ E)|exact (fr_columns f (fs_rules f FS))].
  - intros n. rewrite (ec_columns _ _ _ E). cbn. split; (intros [H|H]; [left; now symmetry|now right]).
Qed.
Lemma extra_value x r : frow_value f2 x r = frow_value f x r + x c * frow_value f2 (only c) r.
Proof using FS FS2 E.
  rewrite (value_sum f2 x r (fr_columns f2 (fs_rules f2 FS2))), (value_sum f x r (fr_columns f (fs_rules f FS))), extra_total.
  rewrite (total_ext _ (fun n => x n * frow_value f2 (only n) r) (fun n => x n * frow_value f (only n) r)) by (intros n I; now rewrite (ec_coefficients _ _ _ E n r I)). ring.
Qed.
Lemma extra_cost_row : cost_row f2 = cost_row f.
Proof using E. unfold cost_row. now rewrite (ec_rows _ _ _ E). Qed.
Lemma without_value x r : frow_value f2 (without x) r = frow_value f x r.
Proof using FS FS2 E.
  rewrite extra_value, without_new. rewrite (value_sum f (without x) r (fr_columns f (fs_rules f FS))), (value_sum f x r (fr_columns f (fs_rules f FS))).
  rewrite (total_ext _ (fun n => without x n * frow_value f (only n) r) (fun n => x n * frow_value f (only n) r)) by (intros n I; now rewrite (without_other x n I)). ring.
Qed.
Lemma extra_holds k r z : frow_holds f2 k r z <-> frow_holds f k r z.
Proof using E. clear FS FS2. unfold frow_holds, frhs, frange. now rewrite (ec_rhs _ _ _ E), (ec_ranges _ _ _ E). Qed.
Lemma extra_beyond y n : In n (column_names_of f) -> beyond f2 y n = beyond f y n.
Proof using E.
  clear FS FS2. intros I. unfold beyond, fcost. rewrite extra_cost_row, (ec_coefficients _ _ _ E n _ I). unfold constraint_names, constraint_rows. rewrite (ec_rows _ _ _ E).
  f_equal. apply total_ext. intros r _. now rewrite (ec_coefficients _ _ _ E n r I).
Qed.
Lemma without_feasible x : ffeasible f x -> ffeasible f2 (without x).
Proof using FS FS2 E.
  intros [R C]. split.
  - intros k r I. rewrite (ec_rows _ _ _ E) in I. rewrite without_value. apply extra_holds. exact (R k r I).
  - intros n I. apply (ec_columns _ _ _ E) in I. destruct I as [->|I]; [rewrite without_new; exact (ec_zero _ _ _ E)|]. rewrite (without_other x n I). apply (ec_allowed _ _ _ E n _ I). exact (C n I).
Qed.
Lemma without_priced x y : priced f x y -> 0 <= toward (fsense f) (beyond f2 y c) -> priced f2 (without x) y.
Proof using FS FS2 E.
  intros P W. constructor; rewrite (ec_sense _ _ _ E).
  - intros k r e I L H. rewrite (ec_rows _ _ _ E) in I. rewrite without_value in H. apply extra_holds in H. exact (pr_row_up _ _ _ P k r e I L H).
  - intros k r e I L H. rewrite (ec_rows _ _ _ E) in I. rewrite without_value in H. apply extra_holds in H. exact (pr_row_down _ _ _ P k r e I L H).
  - intros n e I L H. apply (ec_columns _ _ _ E) in I. destruct I as [->|I]; [exact W|]. rewrite (extra_beyond y n I). rewrite (without_other x n I) in H. apply (ec_allowed _ _ _ E n _ I) in H. exact (pr_column_up _ _ _ P n e I L H).
  - intros n e I L H. apply (ec_columns _ _ _ E) in I. destruct I as [->|I].
    + rewrite without_new in H. pose proof (ec_positive _ _ _ E _ H). exfalso. qlra.
    + rewrite (extra_beyond y n I). rewrite (without_other x n I) in H. apply (ec_allowed _ _ _ E n _ I) in H. exact (pr_column_down _ _ _ P n e I L H).
Qed.
Lemma not_worth s y a2 : answered f (Solved_to s) -> priced f (answer_at s) y -> 0 <= toward (fsense f) (beyond f2 y c) -> answered f2 a2 -> outcome_of f2 a2 = Value (fcost f (answer_at s)).
Proof using FS FS2 E.
  intros A P W A2. apply (answered_right _ _ FS2) in A2. destruct (answered_right f _ FS A) as [O _]. pose proof (without_feasible _ (proj1 O)) as F2.
  pose proof (priced_optimal f2 (fr_columns f2 (fs_rules f2 FS2)) _ y (without_priced _ y P W) F2) as O2.
  assert (C : fcost f2 (without (answer_at s)) = fcost f (answer_at s)) by (unfold fcost; now rewrite without_value, extra_cost_row).
  rewrite <- C. destruct a2 as [s2| |]; cbn [OrderP.right outcome_of] in *.
  - f_equal. destruct A2 as [[X2 B2] _], O2 as [_ B]. apply (better_antisym (fsense f2)); [now apply B2|now apply B].
  - elim (A2 _ F2).
  - destruct A2 as [_ U]. destruct (U (fcost f2 (without (answer_at s)))) as (z & Z & L). pose proof (proj2 O2 z Z) as B. destruct (fsense f2); cbn in B; exfalso; qlra.
Qed.
End Extra.
