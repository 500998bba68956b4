(** * Proofs: a program and its dual *)
From Verif Require Import TextSolveP FixedP FDualP OrderP.
From Verif Require Export SpecPair.
Local Open Scope Qc_scope.
Open Scope list_scope.

(** ** Sums *)
Lemma total_cons (A : Type) (h : A -> Qc) a l : total (map h (a :: l)) = h a + total (map h l).
Proof. reflexivity. Qed.
Lemma total_ext (A : Type) (h k : A -> Qc) l : (forall a, In a l -> h a = k a) -> total (map h l) = total (map k l).
Proof. intros H. f_equal. apply map_ext_in. exact H. Qed.
Lemma total_add (A : Type) (h k : A -> Qc) l : total (map (fun a => h a + k a) l) = total (map h l) + total (map k l).
Proof. unfold total. induction l as [|a l IH]; cbn [map fold_right]; [ring|rewrite IH; ring]. Qed.
Lemma total_mul (A : Type) (h : A -> Qc) c l : total (map (fun a => c * h a) l) = c * total (map h l).
Proof. unfold total. induction l as [|a l IH]; cbn [map fold_right]; [ring|rewrite IH; ring]. Qed.
Lemma total_swap (A B : Type) (h : A -> B -> Qc) l l' : total (map (fun a => total (map (h a) l')) l) = total (map (fun b => total (map (fun a => h a b) l)) l').
Proof.
  induction l as [|a l IH]; cbn [map].
  - symmetry. apply total_zero. intros x X. apply in_map_iff in X. destruct X as (b & <- & _). reflexivity.
  - transitivity (total (map (h a) l') + total (map (fun a => total (map (h a) l')) l)); [reflexivity|]. rewrite IH, <- total_add. reflexivity.
Qed.
Lemma total_nonneg (A : Type) (h : A -> Qc) l : (forall a, In a l -> 0 <= h a) -> 0 <= total (map h l).
Proof. intros H. pose proof (total_le A (fun _ => 0) h l H) as X. rewrite (total_zero (map (fun _ : A => 0) l)) in X; [exact X|]. intros x Y. apply in_map_iff in Y. now destruct Y as (? & <- & _). Qed.
Lemma total_terms (A : Type) (h : A -> Qc) l : (forall a, In a l -> 0 <= h a) -> total (map h l) = 0 -> forall a, In a l -> h a = 0.
Proof.
  induction l as [|b l IH]; intros H Z a HA; [destruct HA|]. change (h b + total (map h l) = 0) in Z. pose proof (H b (or_introl eq_refl)) as X.
  pose proof (total_nonneg A h l (fun c C => H c (or_intror C))) as Y. destruct HA as [<-|HA]; [clear - X Y Z; qlra|]. apply IH; [intros c C; apply H; now right|clear - X Y Z; qlra|assumption].
Qed.
Lemma total_only (l : list string) (h : string -> Qc) n : NoDup l -> In n l -> total (map (fun c => h c * only n c) l) = h n.
Proof.
  induction l as [|c l IH]; intros N H; [destruct H|]. inversion N as [|c' l' NI N']; subst. change (h c * only n c + total (map (fun c => h c * only n c) l) = h n).
  unfold only at 1. destruct (String.eqb_spec c n) as [->|NE].
  - rewrite (total_zero (map _ l)); [ring|]. intros x X. apply in_map_iff in X. destruct X as (c & <- & C). unfold only. destruct (String.eqb_spec c n) as [->|_]; [contradiction|ring].
  - destruct H as [->|H]; [contradiction|]. rewrite IH by assumption. ring.
Qed.

(** ** Rows are sums over the columns *)
Lemma value_sum f x r : NoDup (column_names_of f) -> frow_value f x r = total (map (fun c => x c * frow_value f (only c) r) (column_names_of f)).
Proof.
  intros N. unfold frow_value. assert (K : forall c r v, In (c, r, v) (coefficients f) -> In c (column_names_of f)) by (intros c r0 v H; exact (coefficient_column f c r0 v H)).
  revert K. induction (coefficients f) as [|[[c r'] v] l IH]; intros K.
  - cbn [map]. symmetry. apply total_zero. intros z Z. apply in_map_iff in Z. destruct Z as (c & <- & _). unfold total. cbn. ring.
  - rewrite total_cons. cbv beta iota.
    rewrite IH by (intros c0 r0 v0 H; apply (K c0 r0 v0); now right).
    transitivity (total (map (fun c0 => (if String.eqb r' r then v * x c0 else 0) * only c c0) (column_names_of f)) + total (map (fun c0 => x c0 * total (map (fun '(c, r', v) => if String.eqb r' r then v * only c0 c else 0) l)) (column_names_of f))).
    + f_equal. rewrite (total_only (column_names_of f) (fun c0 => if String.eqb r' r then v * x c0 else 0) c N); [reflexivity|]. apply (K c r' v). now left.
    + rewrite <- total_add. apply total_ext. intros c0 _.
      rewrite total_cons. cbv beta iota. unfold only at 1 3. rewrite (String.eqb_sym c0 c). destruct (String.eqb r' r), (String.eqb c c0); ring.
Qed.
Lemma rhs_unique f r b b' : file_solvable f -> frhs f r b -> frhs f r b' -> b = b'.
Proof.
  intros FS [[g B]|[-> B]] [[g' B']|[-> B']]; [|now apply B' in B|now apply B in B'|reflexivity].
  pose proof (fs_one_rhs f FS) as N. revert B B' N. induction (vector_values (f_rhs f)) as [|[[g0 r0] b0] l IH]; intros B B' N; [destruct B|]. cbn in N. inversion N as [|? ? NI N']; subst.
  assert (K : forall g b, In (g, r, b) l -> In r (map (fun '(_, r, _) => r) l)) by (intros g1 b1 H; apply in_map_iff; exists (g1, r, b1); split; [reflexivity|exact H]).
  destruct B as [B|B], B' as [B'|B']; [congruence|injection B as -> -> ->; elim NI; exact (K _ _ B')|injection B' as -> -> ->; elim NI; exact (K _ _ B)|now apply IH].
Qed.
Lemma no_range_holds f k r b v : file_solvable f -> frhs f r b -> (forall w, ~ frange f r w) -> (frow_holds f k r v <-> plain_holds k b v).
Proof.
  intros FS B N. split; [intros H; exact (proj1 (H b B) N)|]. intros H b' B'. rewrite <- (rhs_unique f r b b' FS B B'). split; [now intros _|]. intros w W. now apply N in W.
Qed.
Lemma constraint_named f r : is_constraint f r -> In r (constraint_names f).
Proof. intros [k K]. apply in_map_iff. exists (mk_mrow r k). split; [reflexivity|]. apply in_flat_map. exists (Some k, r). split; [exact K|now left]. Qed.
Lemma constraint_nodup f : file_rules f -> NoDup (constraint_names f).
Proof.
  intros R. pose proof (fr_rows f R) as N. unfold constraint_names, constraint_rows. induction (f_rows f) as [|[[k|] r] l IH]; [constructor| |]; cbn in N; inversion N as [|? ? NI N']; subst; cbn [flat_map app map row_name]; [|now apply IH].
  constructor; [|now apply IH]. intros H. apply NI. apply in_map_iff in H. destruct H as ([r' k'] & E & H). cbn in E. subst r'. apply in_flat_map in H. destruct H as ([[k0|] r0] & H & K); [|destruct K]. destruct K as [K|[]]. injection K as -> ->. apply in_map_iff. now exists (Some k', r).
Qed.
Lemma slope a c s : (forall t, 0 <= t -> a <= c + s * t) -> 0 <= s.
Proof.
  intros H. destruct (Qclt_le_dec s 0) as [L|L]; [|exact L]. destruct (far_enough c s a L) as (t & T & X). specialize (H t T). exfalso. replace (c + s * t) with (c + t * s) in H by ring. clear - H X. qlra.
Qed.

Section Pair.
Variables f f' : file.
Hypotheses (FS : file_solvable f) (FS' : file_solvable f') (D : dual f f').

Lemma pair_columns (h : string -> Qc) : total (map h (column_names_of f')) = total (map h (constraint_names f)).
Proof using FS FS' D.
  apply total_perm, Permutation_map, NoDup_Permutation; [exact (fr_columns f' (fs_rules f' FS'))|exact (constraint_nodup f (fs_rules f FS))|].
  intros r. rewrite (du_columns f f' D r). split; [apply constraint_named|]. apply constraint_in.
Qed.
Lemma pair_rows (h : string -> Qc) : total (map h (constraint_names f')) = total (map h (column_names_of f)).
Proof using FS FS' D.
  apply total_perm, Permutation_map, NoDup_Permutation; [exact (constraint_nodup f' (fs_rules f' FS'))|exact (fr_columns f (fs_rules f FS))|].
  intros c. rewrite <- (du_rows f f' D c). split; [apply constraint_in|apply constraint_named].
Qed.
Notation b r := (fcost f' (only r)).
Notation cost c := (fcost f (only c)).
Lemma pair_row x k r : In (Some k, r) (f_rows f) -> (frow_holds f k r x <-> plain_holds k (b r) x).
Proof using FS D. intros R. apply no_range_holds; [assumption|apply (du_rhs f f' D); now exists k|exact (du_no_range f f' D r)]. Qed.
Lemma pair_column x k c : In (Some k, c) (f_rows f') -> (frow_holds f' k c x <-> plain_holds k (cost c) x).
Proof using FS' D. intros R. apply no_range_holds; [assumption|apply (du_costs f f' D); now exists k|exact (du_no_range' f f' D c)]. Qed.
Lemma pair_cost x : fcost f x = total (map (fun c => x c * cost c) (column_names_of f)).
Proof using FS. apply value_sum. exact (fr_columns f (fs_rules f FS)). Qed.
Lemma pair_cost' y : fcost f' y = total (map (fun r => y r * b r) (constraint_names f)).
Proof using FS FS' D. rewrite <- (pair_columns (fun r => y r * b r)). apply value_sum. exact (fr_columns f' (fs_rules f' FS')). Qed.
(** both sides of the sum of all rows times their prices *)
Lemma pair_middle x y : total (map (fun r => y r * frow_value f x r) (constraint_names f)) = total (map (fun c => x c * frow_value f' y c) (column_names_of f)).
Proof using FS FS' D.
  transitivity (total (map (fun r => total (map (fun c => y r * (x c * frow_value f (only c) r)) (column_names_of f))) (constraint_names f))).
  { apply total_ext. intros r _. rewrite total_mul, <- value_sum by exact (fr_columns f (fs_rules f FS)). reflexivity. }
  rewrite total_swap. apply total_ext. intros c C. rewrite (value_sum f' y c) by exact (fr_columns f' (fs_rules f' FS')). rewrite pair_columns, <- total_mul. apply total_ext. intros r R.
  rewrite (du_coefficients f f' D r c); [ring|exact (constraint_in f r R)|apply (du_rows f f' D); exact C].
Qed.
(** the difference of the costs is a sum of terms that are not negative *)
Lemma pair_gap x y : fcost f x - fcost f' y = total (map (fun r => y r * (frow_value f x r - b r)) (constraint_names f)) + total (map (fun c => x c * (cost c - frow_value f' y c)) (column_names_of f)).
Proof using FS FS' D.
  rewrite pair_cost, pair_cost'. pose proof (pair_middle x y) as M.
  rewrite (total_ext _ (fun r => y r * (frow_value f x r - b r)) (fun r => y r * frow_value f x r + (-(1)) * (y r * b r))) by (intros; ring).
  rewrite (total_ext _ (fun c => x c * (cost c - frow_value f' y c)) (fun c => x c * cost c + (-(1)) * (x c * frow_value f' y c))) by (intros; ring).
  rewrite !total_add, !total_mul, M. ring.
Qed.
Lemma row_term x y r : ffeasible f x -> ffeasible f' y -> In r (constraint_names f) -> 0 <= y r * (frow_value f x r - b r).
Proof using FS FS' D.
  intros [FR _] [_ FV'] R. destruct (constraint_in f r R) as [k K]. pose proof (proj1 (pair_row _ k r K) (FR k r K)) as H.
  pose proof (proj1 (du_prices f f' D k r K (y r)) (FV' r (proj2 (du_columns f f' D r) (constraint_in f r R)))) as Y.
  destruct k; cbn in H, Y.
  - replace (y r * (frow_value f x r - b r)) with ((- y r) * (b r - frow_value f x r)) by ring. apply Qc_mul_nonneg; clear - H Y; qlra.
  - rewrite H. replace (y r * (b r - b r)) with 0 by ring. apply Qcle_refl.
  - apply Qc_mul_nonneg; [exact Y|clear - H; qlra].
Qed.
Lemma column_term x y c : ffeasible f x -> ffeasible f' y -> In c (column_names_of f) -> 0 <= x c * (cost c - frow_value f' y c).
Proof using FS FS' D.
  intros [_ FV] [FR' _] C. destruct (proj2 (du_rows f f' D c) C) as [k K]. pose proof (proj1 (pair_column _ k c K) (FR' k c K)) as H.
  pose proof (proj1 (du_amounts f f' D k c K (x c)) (FV c C)) as X.
  destruct k; cbn in H, X.
  - apply Qc_mul_nonneg; [exact X|clear - H; qlra].
  - rewrite H. replace (x c * (cost c - cost c)) with 0 by ring. apply Qcle_refl.
  - replace (x c * (cost c - frow_value f' y c)) with ((- x c) * (frow_value f' y c - cost c)) by ring. apply Qc_mul_nonneg; clear - H X; qlra.
Qed.
Lemma weak_duality x y : ffeasible f x -> ffeasible f' y -> fcost f' y <= fcost f x.
Proof using FS FS' D.
  intros X Y. pose proof (pair_gap x y) as G. pose proof (total_nonneg _ _ _ (fun r R => row_term x y r X Y R)) as A. pose proof (total_nonneg _ _ _ (fun c C => column_term x y c X Y C)) as B. cbn beta in A, B.
  revert G A B. generalize (total (map (fun r => y r * (frow_value f x r - b r)) (constraint_names f))), (total (map (fun c => x c * (cost c - frow_value f' y c)) (column_names_of f))). intros u v G A B. clear - G A B. qlra.
Qed.
(** where the costs are equal, a price that is not zero belongs to a row without slack, and an amount that is not zero
    to a column whose worth is its cost *)
Lemma no_gap x y : ffeasible f x -> ffeasible f' y -> fcost f x = fcost f' y ->
  (forall r, is_constraint f r -> y r <> 0 -> frow_value f x r = b r) /\ (forall c, is_constraint f' c -> x c <> 0 -> frow_value f' y c = cost c).
Proof using FS FS' D.
  intros X Y E. pose proof (pair_gap x y) as G. pose proof (total_nonneg _ _ _ (fun r R => row_term x y r X Y R)) as A. pose proof (total_nonneg _ _ _ (fun c C => column_term x y c X Y C)) as B. cbn beta in A, B.
  assert (Z : total (map (fun r => y r * (frow_value f x r - b r)) (constraint_names f)) = 0 /\ total (map (fun c => x c * (cost c - frow_value f' y c)) (column_names_of f)) = 0).
  { revert G A B. generalize (total (map (fun r => y r * (frow_value f x r - b r)) (constraint_names f))), (total (map (fun c => x c * (cost c - frow_value f' y c)) (column_names_of f))). intros u v G A B. rewrite E in G. clear - G A B. split; qlra. }
  destruct Z as [ZR ZC]. assert (C0 : forall u v w : Qc, u * (v - w) = 0 -> u <> 0 -> v = w).
  { intros u v w P N. destruct (Qcmult_integral _ _ P) as [Q|Q]; [contradiction|]. clear - Q. qlra. }
  split.
  - intros r R N. apply (C0 (y r)); [|exact N]. exact (total_terms _ _ _ (fun r R => row_term x y r X Y R) ZR r (constraint_named f r R)).
  - intros c C N. symmetry. apply (C0 (x c)); [|exact N]. exact (total_terms _ _ _ (fun c C => column_term x y c X Y C) ZC c (proj1 (du_rows f f' D c) C)).
Qed.

(** ** Multipliers of one program are points of the other *)
(** [y] times the rows is at most [w c] (or at least, or equal, by the kind) for each column, and its signs are right *)
Definition prices (y : valuation) (w : string -> Qc) : Prop :=
  (forall k c, In (Some k, c) (f_rows f') -> plain_holds k (w c) (frow_value f' y c)) /\ (forall k r, In (Some k, r) (f_rows f) -> price_allowed k (y r)).
Lemma proof_prices (w : valuation) y d v : fproves f (fun x => total (map (fun c => x c * w c) (column_names_of f))) y d v -> prices y w /\ v <= fcost f' y.
Proof using FS FS' D.
  intros (rows & vars & HI & HR & HV & <-). cbn beta in HI.
  assert (R : forall k r, In (Some k, r) (f_rows f) -> price_allowed k (y r) /\ rows r <= y r * b r).
  { intros k r K. assert (P : forall z, plain_holds k (b r) z -> rows r <= y r * z) by (intros z Z; apply (HR k r K z); now apply pair_row). split.
    - destruct k; cbn in P |- *; [|exact I|].
      + enough (0 <= - y r) as X by (clear - X; qlra). apply (slope (rows r) (y r * b r)). intros t T. replace (y r * b r + - y r * t) with (y r * (b r - t)) by ring. apply P. clear - T. qlra.
      + apply (slope (rows r) (y r * b r)). intros t T. replace (y r * b r + y r * t) with (y r * (b r + t)) by ring. apply P. clear - T. qlra.
    - apply P. destruct k; cbn; first [apply Qcle_refl|reflexivity]. }
  assert (NDC : NoDup (column_names_of f)) by exact (fr_columns f (fs_rules f FS)).
  assert (W : forall c, In c (column_names_of f) -> w c = frow_value f' y c + d c).
  { intros c C. specialize (HI (only c)). rewrite pair_middle in HI.
    rewrite (total_ext _ (fun c0 => only c c0 * w c0) (fun c0 => w c0 * only c c0)) in HI by (intros; ring). rewrite (total_ext _ (fun c0 => only c c0 * frow_value f' y c0) (fun c0 => frow_value f' y c0 * only c c0)) in HI by (intros; ring).
    rewrite (total_only _ w), (total_only _ (frow_value f' y)), (total_only _ d) in HI by assumption. exact HI. }
  assert (C : forall k c, In (Some k, c) (f_rows f') -> plain_holds k (w c) (frow_value f' y c) /\ vars c <= 0).
  { intros k c K. assert (CN : In c (column_names_of f)) by (apply (du_rows f f' D); now exists k). rewrite (W c CN).
    assert (P : forall z, amount_allowed k z -> vars c <= d c * z) by (intros z Z; apply (HV c CN z); now apply (du_amounts f f' D k c K)). split.
    - assert (Q : match k with KLess => 0 <= d c | KGreater => d c <= 0 | KEqual => d c = 0 end).
      { destruct k; cbn in P.
        - apply (slope (vars c) 0). intros t T. replace (0 + d c * t) with (d c * t) by ring. now apply P.
        - apply Qcle_antisym.
          + enough (0 <= - d c) as X by (clear - X; qlra). apply (slope (vars c) 0). intros t _. replace (0 + - d c * t) with (d c * - t) by ring. now apply P.
          + apply (slope (vars c) 0). intros t _. replace (0 + d c * t) with (d c * t) by ring. now apply P.
        - enough (0 <= - d c) as X by (clear - X; qlra). apply (slope (vars c) 0). intros t T. replace (0 + - d c * t) with (d c * - t) by ring. apply P. clear - T. qlra. }
      destruct k; cbn in Q |- *; clear - Q; qlra.
    - replace 0 with (d c * 0) by ring. apply P. destruct k; cbn; first [apply Qcle_refl|exact I]. }
  split; [split; [intros k c K; now apply C|intros k r K; now apply R]|].
  rewrite pair_cost'. assert (A1 : total (map rows (constraint_names f)) <= total (map (fun r => y r * b r) (constraint_names f))).
  { apply total_le. intros r RN. destruct (constraint_in f r RN) as [k K]. now apply (R k). }
  assert (A2 : total (map vars (column_names_of f)) <= 0).
  { rewrite <- (total_zero (map (fun _ : string => 0) (column_names_of f))) by (intros x X; apply in_map_iff in X; now destruct X as (? & <- & _)). apply total_le. intros c CN. destruct (proj2 (du_rows f f' D c) CN) as [k K]. now apply (C k). }
  revert A1 A2. generalize (total (map rows (constraint_names f))), (total (map vars (column_names_of f))), (total (map (fun r => y r * b r) (constraint_names f))). intros u v w0 A1 A2. clear - A1 A2. qlra.
Qed.
Lemma price_column r y : In r (column_names_of f') -> (forall k r, In (Some k, r) (f_rows f) -> price_allowed k (y r)) -> fallowed f' r (y r).
Proof using D. intros R H. destruct (proj1 (du_columns f f' D r) R) as [k K]. apply (du_prices f f' D k r K). now apply H. Qed.
Lemma bound_point y d v : fproves_bound f y d v -> ffeasible f' y /\ v <= fcost f' y.
Proof using FS FS' D.
  unfold fproves_bound. rewrite (du_minimize f f' D). cbn [toward]. intros (rows & vars & HI & H). destruct (proof_prices (fun c => cost c) y d v) as [[P1 P2] L].
  { exists rows, vars. split; [intros x; rewrite <- HI; symmetry; apply pair_cost|exact H]. }
  split; [split|exact L].
  - intros k c K. apply pair_column; [assumption|]. now apply P1.
  - intros r R. apply price_column; assumption.
Qed.
Lemma infeasible_direction y d : fproves_infeasible f y d -> 0 < fcost f' y /\ forall y0 t, ffeasible f' y0 -> 0 <= t -> ffeasible f' (fun r => y0 r + t * y r).
Proof using FS FS' D.
  intros (v & V & rows & vars & HI & H). destruct (proof_prices (fun _ => 0) y d v) as [[P1 P2] L].
  { exists rows, vars. split; [|exact H]. intros x. rewrite <- HI. apply total_zero. intros z Z. apply in_map_iff in Z. destruct Z as (? & <- & _). ring. }
  split; [exact (Qclt_le_trans _ _ _ V L)|]. intros y0 t [FR FV] T. split.
  - intros k c K. apply pair_column; [assumption|]. rewrite frow_value_move. pose proof (proj1 (pair_column _ k c K) (FR k c K)) as A. pose proof (P1 k c K) as B.
    set (u := frow_value f' y c) in *. set (w := frow_value f' y0 c) in *. set (z := cost c) in *. clearbody u w z. destruct k; cbn in A, B |- *.
    + enough (0 <= t * (0 - u)) as X by (clear - A X; replace (t * (0 - u)) with (- (t * u)) in X by ring; qlra). apply Qc_mul_nonneg; [exact T|clear - B; qlra].
    + rewrite A, B. ring.
    + enough (0 <= t * u) as X by (clear - A X; qlra). apply Qc_mul_nonneg; [exact T|exact B].
  - intros r R. specialize (FV r R). destruct (proj1 (du_columns f f' D r) R) as [k K]. pose proof (P2 k r K) as B. apply (du_prices f f' D k r K) in FV. apply (du_prices f f' D k r K).
    set (u := y r) in *. set (w := y0 r) in *. clearbody u w. destruct k; cbn in FV, B |- *; [|exact I|].
    + enough (0 <= t * (0 - u)) as X by (clear - FV X; replace (t * (0 - u)) with (- (t * u)) in X by ring; qlra). apply Qc_mul_nonneg; [exact T|clear - B; qlra].
    + enough (0 <= t * u) as X by (clear - FV X; qlra). apply Qc_mul_nonneg; [exact T|exact B].
Qed.

(** ** Outcomes *)
Definition certified : Prop := (forall x, foptimal f x -> exists y d, fproves_bound f y d (fcost f x)) /\ ((forall x, ~ ffeasible f x) -> exists y d, fproves_infeasible f y d).
Lemma answered_certified a : answered f a -> certified.
Proof using FS.
  intros H. destruct H as [b0 r n fuel text OK SP E|b0 r n fuel text OK SP E|b0 r n fuel text OK SP SR F E|b0 r n fuel text OK SP SR F E].
  1,3: split; [intros x X; exact (every_optimum_certified (parse_free b0) f text x FS (text_reads b0 f text OK SP) X)|exact (every_infeasible_certified (parse_free b0) f text FS (text_reads b0 f text OK SP))].
  all: split; [intros x X; exact (every_optimum_certified (parse_fixed b0) f text x FS (fixed_read b0 f text OK SP) X)|exact (every_infeasible_certified (parse_fixed b0) f text FS (fixed_read b0 f text OK SP))].
Qed.
Lemma right_dual a a' : certified -> OrderP.right f a -> OrderP.right f' a' -> dual_outcomes (outcome_of f a) (outcome_of f' a').
Proof using FS FS' D.
  intros [CO CI] R R'. destruct a as [s| |].
  - destruct R as [O _]. destruct (CO _ O) as (y & d & P). destruct (bound_point y d _ P) as [Y L]. destruct O as [X _]. destruct a' as [s'| |]; cbn.
    + destruct R' as [[X' O'] _]. apply Qcle_antisym; [|exact (weak_duality _ _ X X')]. specialize (O' y Y). rewrite (du_maximize f f' D) in O'. exact (Qcle_trans _ _ _ L O').
    + exact (R' y Y).
    + destruct R' as [_ U]. destruct (U (fcost f (answer_at s))) as (y' & Y' & LT). rewrite (du_maximize f f' D) in LT. exact (Qclt_not_le _ _ LT (weak_duality _ _ X Y')).
  - destruct (CI R) as (y & d & P). destruct (infeasible_direction y d P) as [PY M]. destruct a' as [s'| |]; cbn; try exact I.
    destruct R' as [[X' O'] _]. specialize (O' _ (M _ 1 X' ltac:(apply qleb_true; reflexivity))). rewrite (du_maximize f f' D) in O'. cbn in O'. unfold fcost in O', PY. rewrite frow_value_move in O'. clear - O' PY. qlra.
  - destruct R as [_ U]. rewrite (du_minimize f f' D) in U. destruct a' as [s'| |]; cbn; [|exact I|].
    + destruct R' as [[X' _] _]. destruct (U (fcost f' (answer_at s'))) as (x & X & LT). exact (Qclt_not_le _ _ LT (weak_duality _ _ X X')).
    + destruct R' as [[y Y] _]. destruct (U (fcost f' y)) as (x & X & LT). exact (Qclt_not_le _ _ LT (weak_duality _ _ X Y)).
Qed.
Lemma dual_answers a a' : answered f a -> answered f' a' -> dual_outcomes (outcome_of f a) (outcome_of f' a').
Proof using FS FS' D. intros A A'. apply right_dual; [exact (answered_certified a A)|now apply answered_right|now apply answered_right]. Qed.
Lemma dual_slack s s' : answered f (Solved_to s) -> answered f' (Solved_to s') ->
  (forall r, is_constraint f r -> answer_at s' r <> 0 -> frhs f r (frow_value f (answer_at s) r)) /\ (forall c, is_constraint f' c -> answer_at s c <> 0 -> frhs f' c (frow_value f' (answer_at s') c)).
Proof using FS FS' D.
  intros A A'. pose proof (dual_answers _ _ A A') as E. cbn in E. destruct (answered_right f _ FS A) as [[X _] _], (answered_right f' _ FS' A') as [[Y _] _].
  destruct (no_gap _ _ X Y E) as [P Q]. split.
  - intros r R N. rewrite (P r R N). now apply (du_rhs f f' D).
  - intros c C N. rewrite (Q c C N). now apply (du_costs f f' D).
Qed.
(** the values of the dual prove the optimum *)
Lemma dual_proves s s' : answered f (Solved_to s) -> answered f' (Solved_to s') ->
  exists d, fproves_bound f (answer_at s') d (fcost f (answer_at s)).
Proof using FS FS' D.
  intros A A'. pose proof (dual_answers _ _ A A') as E. cbn in E. destruct (answered_right f' _ FS' A') as [[Y _] _].
  set (y := answer_at s') in *. exists (fun c => cost c - frow_value f' y c). unfold fproves_bound. rewrite (du_minimize f f' D). cbn [toward]. exists (fun r => y r * b r), (fun _ => 0). split; [|split; [|split]].
  - intros x. rewrite (total_ext _ (fun c => (cost c - frow_value f' y c) * x c) (fun c => x c * cost c + (-(1)) * (x c * frow_value f' y c))) by (intros; ring). rewrite total_add, total_mul, <- pair_middle, <- pair_cost. ring.
  - intros k r K z Z. apply pair_row in Z; [|assumption]. destruct Y as [_ FV]. pose proof (proj1 (du_prices f f' D k r K (y r)) (FV r (proj2 (du_columns f f' D r) (ex_intro _ k K)))) as P.
    enough (0 <= y r * (z - b r)) as W by (clear - W; replace (y r * (z - b r)) with (y r * z - y r * b r) in W by ring; qlra).
    destruct k; cbn in Z, P.
    + replace (y r * (z - b r)) with ((- y r) * (b r - z)) by ring. apply Qc_mul_nonneg; clear - Z P; qlra.
    + rewrite Z. replace (y r * (b r - b r)) with 0 by ring. apply Qcle_refl.
    + apply Qc_mul_nonneg; [exact P|clear - Z; qlra].
  - intros c C z Z. destruct (proj2 (du_rows f f' D c) C) as [k K]. destruct Y as [FR _]. pose proof (proj1 (pair_column _ k c K) (FR k c K)) as H. apply (du_amounts f f' D k c K) in Z. destruct k; cbn in H, Z.
    + apply Qc_mul_nonneg; [clear - H; qlra|exact Z].
    + rewrite H. replace ((cost c - cost c) * z) with 0 by ring. apply Qcle_refl.
    + replace ((cost c - frow_value f' y c) * z) with ((frow_value f' y c - cost c) * (- z)) by ring. apply Qc_mul_nonneg; clear - H Z; qlra.
  - rewrite <- pair_cost'. fold y in E. rewrite E. rewrite (total_zero (map (fun _ : string => 0) _)) by (intros x X; apply in_map_iff in X; now destruct X as (? & <- & _)). ring.
Qed.
(** the prices bound what other right-hand sides can bring *)
Lemma dual_sensitivity f2 s s' b1 b2 x : answered f (Solved_to s) -> answered f' (Solved_to s') -> other_rhs f f2 ->
  (forall r, is_constraint f r -> frhs f r (b1 r)) -> (forall r, is_constraint f r -> frhs f2 r (b2 r)) ->
  ffeasible f2 x -> fcost f (answer_at s) + expected_change f (answer_at s') b1 b2 <= fcost f2 x.
Proof using FS FS' D.
  intros A A' O B1 B2 X. pose proof (dual_answers _ _ A A') as E. cbn in E. destruct (answered_right f' _ FS' A') as [[Y _] _]. set (y := answer_at s') in *. rewrite E.
  assert (V : forall r, frow_value f2 x r = frow_value f x r) by (intros r; unfold frow_value, coefficients; now rewrite (or_columns _ _ O)).
  assert (CR : cost_row f2 = cost_row f) by (unfold cost_row; now rewrite (or_rows _ _ O)).
  assert (EC : fcost f2 x = fcost f x) by (unfold fcost; now rewrite CR, V). rewrite EC.
  assert (EX : fcost f' y + expected_change f y b1 b2 = total (map (fun r => y r * b2 r) (constraint_names f))).
  { rewrite pair_cost'. unfold expected_change. rewrite <- total_add. apply total_ext. intros r R. rewrite (rhs_unique f r (b1 r) (b r) FS (B1 r (constraint_in f r R)) (du_rhs f f' D r (constraint_in f r R))). ring. }
  rewrite EX.
  assert (T1 : total (map (fun r => y r * b2 r) (constraint_names f)) <= total (map (fun r => y r * frow_value f x r) (constraint_names f))).
  { apply total_le. intros r R. destruct (constraint_in f r R) as [k K]. destruct X as [FR _]. specialize (FR k r). rewrite (or_rows _ _ O), V in FR. specialize (FR K).
    pose proof (proj1 (FR (b2 r) (B2 r (ex_intro _ k K)))) as H. specialize (H ltac:(intros w W; unfold frange in W; rewrite (or_ranges _ _ O) in W; exact (du_no_range f f' D r w W))).
    destruct Y as [_ FV]. pose proof (proj1 (du_prices f f' D k r K (y r)) (FV r (proj2 (du_columns f f' D r) (ex_intro _ k K)))) as P. set (z := frow_value f x r) in *. clearbody z.
    enough (0 <= y r * (z - b2 r)) as W by (clear - W; replace (y r * (z - b2 r)) with (y r * z - y r * b2 r) in W by ring; qlra).
    destruct k; cbn in H, P.
    + replace (y r * (z - b2 r)) with ((- y r) * (b2 r - z)) by ring. apply Qc_mul_nonneg; clear - H P; qlra.
    + rewrite H. replace (y r * (b2 r - b2 r)) with 0 by ring. apply Qcle_refl.
    + apply Qc_mul_nonneg; [exact P|clear - H; qlra]. }
  assert (T2 : total (map (fun r => y r * frow_value f x r) (constraint_names f)) <= fcost f x).
  { rewrite pair_middle, pair_cost. apply total_le. intros c C. destruct (proj2 (du_rows f f' D c) C) as [k K]. destruct Y as [FR _]. pose proof (proj1 (pair_column _ k c K) (FR k c K)) as H.
    destruct X as [_ FV]. assert (AL : fallowed f c (x c)). { unfold column_names_of, columns_of in C. specialize (FV c). unfold columns_of, fallowed in FV. rewrite (or_columns _ _ O), (or_bounds _ _ O) in FV. exact (FV C). }
    apply (du_amounts f f' D k c K) in AL. set (w := frow_value f' y c) in *. clearbody w. set (z := cost c) in *. clearbody z. set (t := x c) in *. clearbody t.
    enough (0 <= t * (z - w)) as W by (clear - W; replace (t * (z - w)) with (t * z - t * w) in W by ring; qlra).
    destruct k; cbn in H, AL.
    + apply Qc_mul_nonneg; [exact AL|clear - H; qlra].
    + rewrite H. replace (t * (z - z)) with 0 by ring. apply Qcle_refl.
    + replace (t * (z - w)) with ((- t) * (w - z)) by ring. apply Qc_mul_nonneg; clear - H AL; qlra. }
  exact (Qcle_trans _ _ _ T1 T2).
Qed.
End Pair.
