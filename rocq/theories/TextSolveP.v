(** * Proofs: from the text of a file to the answer *)
From Verif Require Import SpecFile TextPipeline FileP MpsP ConvertP MpsQ SparseP LinAlg GeneralQ.
Local Open Scope Qc_scope.

(** ** Sums *)
Lemma total_app a b : total (a ++ b) = total a + total b.
Proof. unfold total. induction a as [|x a IH]; cbn [app fold_right]; [ring|]. rewrite IH. ring. Qed.
Lemma total_perm a b : Permutation a b -> total a = total b.
Proof. unfold total. induction 1; cbn in *; [reflexivity|congruence|ring|congruence]. Qed.
Lemma total_zero l : (forall x, In x l -> x = 0) -> total l = 0.
Proof. induction l as [|a l IH]; intros H; [reflexivity|]. cbn. fold (total l). rewrite IH by (intros; apply H; now right). rewrite (H a) by now left. ring. Qed.
Lemma total_sum (A : Type) (d : A) (h : A -> Qc) l : total (map h l) = sum (length l) (fun j => h (nth j l d)).
Proof.
  induction l as [|a l IH] using rev_ind; [reflexivity|]. rewrite map_app, total_app, app_length. cbn [length]. rewrite Nat.add_1_r. cbn [sum].
  rewrite IH, app_nth2, Nat.sub_diag by lia. cbn. rewrite (sum_ext _ (fun j => h (nth j (l ++ [a]) d)) (fun j => h (nth j l d))); [ring|]. intros j J. now rewrite app_nth1.
Qed.
Lemma total_flat_map (A B : Type) (h : B -> Qc) (k : A -> list B) l : total (map h (flat_map k l)) = total (map (fun a => total (map h (k a))) l).
Proof. induction l as [|a l IH]; [reflexivity|]. cbn [flat_map map]. rewrite map_app, total_app, IH. reflexivity. Qed.
Lemma total_den l i y : total (map (fun '(k, v) => if Nat.eqb k i then v * y else 0) l) = den l i * y.
Proof.
  unfold total. induction l as [|[k v] l IH]; cbn [map fold_right den]; [ring|]. rewrite IH, (Nat.eqb_sym i k). destruct (Nat.eqb k i); ring.
Qed.

Section Describes.
Variables (f : file) (m : mps).
Hypothesis OK : file_rules f.
Hypothesis D : describes m f.

Lemma row_names : NoDup (m_cost_name m :: map row_name (m_rows m)).
Proof.
  apply (Permutation_NoDup (l := m_cost_name m :: map row_name (constraint_rows f))).
  - constructor. apply Permutation_map, Permutation_sym, (de_rows m f D).
  - exact (rows_nodup (f_rows f) (m_cost_name m) (fr_rows f OK) (de_cost m f D)).
Qed.
Lemma column_names : NoDup (map col_name (m_columns m)).
Proof. pose proof (fr_columns f OK) as H. rewrite <- (de_columns m f D), map_map in H. exact H. Qed.
Lemma row_at_inj i j : (i < length (m_rows m))%nat -> (j < length (m_rows m))%nat -> row_at m i = row_at m j -> i = j.
Proof.
  intros I J E. pose proof row_names as N. apply NoDup_cons_iff in N. destruct N as [_ N]. apply (proj1 (NoDup_nth (map row_name (m_rows m)) (row_name (mk_mrow "" KEqual))) N); rewrite ?map_length; try assumption.
  rewrite !map_nth. exact E.
Qed.
Lemma column_at_inj i j : (i < length (m_columns m))%nat -> (j < length (m_columns m))%nat -> column_at m i = column_at m j -> i = j.
Proof.
  intros I J E. apply (proj1 (NoDup_nth (map col_name (m_columns m)) (col_name (mk_mcolumn "" false []))) column_names); rewrite ?map_length; try assumption.
  rewrite !map_nth. exact E.
Qed.
Lemma cost_not_row i : (i < length (m_rows m))%nat -> m_cost_name m <> row_at m i.
Proof.
  intros I E. pose proof row_names as N. apply NoDup_cons_iff in N. apply (proj1 N). rewrite E. unfold row_at. apply in_map, nth_In. assumption.
Qed.
Lemma cost_row_name : cost_row f = m_cost_name m.
Proof.
  destruct (fr_cost f OK) as (c & C1 & C2). pose proof (de_cost m f D) as C3. unfold cost_row. destruct (filter _ (f_rows f)) as [|[k r] l] eqn:E.
  - assert (H : In (None, m_cost_name m) (filter (fun '(k, _) => match k with None => true | Some _ => false end) (f_rows f))) by now apply filter_In.
    rewrite E in H. destruct H.
  - assert (H : In (k, r) (filter (fun '(k, _) => match k with None => true | Some _ => false end) (f_rows f))) by (rewrite E; now left).
    apply filter_In in H. destruct H as [H K]. destruct k; [discriminate|]. rewrite (C2 _ H). symmetry. now apply C2.
Qed.

(** ** Values *)
Variable x : valuation.
Definition point : vec := fun j => x (column_at m j).
Lemma row_value_as name : frow_value f x name =
  sum (length (m_columns m)) (fun j => total (map (fun '(i, v) => if String.eqb (row_at m i) name then v * point j else 0) (col_values (nth j (m_columns m) (mk_mcolumn "" false []))))) +
  total (map (fun '(j, v) => if String.eqb (m_cost_name m) name then v * point j else 0) (m_costs m)).
Proof.
  unfold frow_value. rewrite <- (total_perm _ _ (Permutation_map _ (de_coefficients m f D))). unfold said_coefficients. rewrite map_app, total_app. f_equal.
  - rewrite total_flat_map, (total_sum _ (mk_mcolumn "" false [])). apply sum_ext. intros j J. rewrite map_map. f_equal. apply map_ext. intros [i v]. reflexivity.
  - rewrite map_map. f_equal. apply map_ext. intros [j v]. reflexivity.
Qed.
Lemma value_agrees i : (i < length (m_rows m))%nat -> frow_value f x (row_at m i) = mrow_value m point i.
Proof.
  intros I. rewrite row_value_as. unfold mrow_value. rewrite (total_zero (map _ (m_costs m))).
  - rewrite Qcplus_0_r. apply sum_ext. intros j J. unfold mcoefficient. rewrite <- total_den. f_equal. apply map_ext_in. intros [k v] K.
    assert (L : (k < length (m_rows m))%nat) by (apply (proj2 (de_values m f D _ (nth_In _ _ J)) k v K)).
    destruct (Nat.eqb_spec k i) as [->|N]; [now rewrite String.eqb_refl|]. destruct (String.eqb_spec (row_at m k) (row_at m i)) as [E|_]; [|reflexivity]. elim N. now apply row_at_inj.
  - intros y Y. apply in_map_iff in Y. destruct Y as ([j v] & <- & _). destruct (String.eqb_spec (m_cost_name m) (row_at m i)) as [E|_]; [|reflexivity]. elim (cost_not_row i I E).
Qed.
Lemma cost_agrees : fcost f x = mcost m point.
Proof.
  unfold fcost. rewrite cost_row_name, row_value_as, sum_zero.
  - unfold mcost. rewrite Qcplus_0_l. rewrite String.eqb_refl. pose proof (mo_cost m (de_ok m f D)) as MC. induction (m_costs m) as [|[j v] l IH]; cbn [map den].
    + rewrite sum_zero; [reflexivity|]. intros. cbn. ring.
    + unfold total in *. cbn [fold_right]. rewrite IH by (intros; apply (MC j0 c); now right).
      rewrite (sum_ext _ (fun j0 => ((if Nat.eqb j0 j then v else 0) + den l j0) * point j0) (fun j0 => (if Nat.eqb j0 j then v else 0) * point j0 + den l j0 * point j0)) by (intros; ring).
      rewrite sum_plus. f_equal. symmetry. rewrite (sum_single _ j); [rewrite Nat.eqb_refl; reflexivity| |].
      * apply (MC j v). now left.
      * intros k K N. destruct (Nat.eqb_spec k j); [contradiction|ring].
  - intros j J. apply total_zero. intros y Y. apply in_map_iff in Y. destruct Y as ([k v] & <- & K).
    assert (L : (k < length (m_rows m))%nat) by (apply (proj2 (de_values m f D _ (nth_In _ _ J)) k v K)).
    destruct (String.eqb_spec (row_at m k) (m_cost_name m)) as [E|_]; [|reflexivity]. now elim (cost_not_row k L).
Qed.

(** ** Rows and bounds *)
Lemma said_iff l items i v : (forall k w, In (k, w) (ungroup l) -> (k < length (m_rows m))%nat) -> Permutation (said_values m l) (vector_values items) -> (i < length (m_rows m))%nat ->
  (In (i, v) (ungroup l) <-> exists g, In (g, row_at m i, v) (vector_values items)).
Proof.
  intros B P I. split.
  - intros H. unfold ungroup in H. apply in_flat_map in H. destruct H as (g & G & H). exists (grp_name g). apply (Permutation_in _ P). unfold said_values. apply in_flat_map. exists g. split; [assumption|].
    apply in_map_iff. now exists (i, v).
  - intros [n H]. apply (Permutation_in _ (Permutation_sym P)) in H. unfold said_values in H. apply in_flat_map in H. destruct H as (g & G & H). apply in_map_iff in H. destruct H as ([k w] & E & H).
    assert (K : In (k, w) (ungroup l)) by (apply in_flat_map; exists g; now split). injection E as E1 E2 E3. subst w. rewrite <- (row_at_inj k i); [assumption|now apply (B k v)|assumption|assumption].
Qed.
Lemma rhs_iff i b : (i < length (m_rows m))%nat -> (given_rhs m i b <-> exists g, In (g, row_at m i, b) (vector_values (f_rhs f))).
Proof. intros I. apply said_iff; [exact (mo_rhs m (de_ok m f D))|exact (de_rhs m f D)|assumption]. Qed.
Lemma range_iff i r : (i < length (m_rows m))%nat -> (given_range m i r <-> frange f (row_at m i) r).
Proof. intros I. apply said_iff; [exact (mo_range m (de_ok m f D))|exact (de_ranges m f D)|assumption]. Qed.
Lemma bound_iff j t : (j < length (m_columns m))%nat -> (stated m j t <-> exists g, In (t, g, column_at m j) (f_bounds f)).
Proof.
  intros J. split.
  - intros H. unfold stated, ungroup in H. apply in_flat_map in H. destruct H as (g & G & H). exists (grp_name g). apply (Permutation_in _ (de_bounds m f D)). unfold said_bounds. apply in_flat_map. exists g. split; [assumption|].
    apply in_map_iff. now exists (j, t).
  - intros [n H]. apply (Permutation_in _ (Permutation_sym (de_bounds m f D))) in H. unfold said_bounds in H. apply in_flat_map in H. destruct H as (g & G & H). apply in_map_iff in H. destruct H as ([k w] & E & H).
    assert (K : stated m k w) by (apply in_flat_map; exists g; now split). injection E as E1 E2 E3. subst w. rewrite <- (column_at_inj k j); [assumption|now apply (mo_bound m (de_ok m f D) k t)|assumption|assumption].
Qed.
Lemma holds_agrees i v : (i < length (m_rows m))%nat -> (frow_holds f (kind_of m i) (row_at m i) v <-> mrow_holds m i v).
Proof.
  intros I. unfold frow_holds, mrow_holds, frhs.
  assert (R : forall b, (exists g, In (g, row_at m i, b) (vector_values (f_rhs f))) \/ (b = 0 /\ (forall g b', ~ In (g, row_at m i, b') (vector_values (f_rhs f)))) <->
    given_rhs m i b \/ (b = 0 /\ forall b', ~ given_rhs m i b')).
  { intros b. rewrite (rhs_iff i b I). split; (intros [H|[Z H]]; [now left|right; split; [assumption|]]).
    - intros b' G. apply (rhs_iff i b' I) in G. destruct G as [g G]. exact (H g b' G).
    - intros g b' G. apply (H b'), (rhs_iff i b' I). now exists g. }
  split; intros H b B; apply R in B; specialize (H b B); destruct H as [H1 H2]; (split; [intros N; apply H1; intros w W; apply (N w), (range_iff i w I), W|intros r W; apply H2, (range_iff i r I), W]).
Qed.
Lemma allowed_agrees j v : (j < length (m_columns m))%nat -> (fallowed f (column_at m j) v <-> mvalue_allowed m j v).
Proof.
  intros J. unfold fallowed, mvalue_allowed. split; intros [H1 H2]; split.
  - intros t T. apply (bound_iff j t J) in T. destruct T as [g T]. exact (H1 t g T).
  - intros L. apply H2. intros t g T. apply L, (bound_iff j t J). now exists g.
  - intros t g T. apply H1, (bound_iff j t J). now exists g.
  - intros L. apply H2. intros t T. apply (bound_iff j t J) in T. destruct T as [g T]. exact (L t g T).
Qed.
Lemma row_in k r : In (Some k, r) (f_rows f) <-> exists i, (i < length (m_rows m))%nat /\ row_at m i = r /\ kind_of m i = k.
Proof.
  assert (C : In (Some k, r) (f_rows f) <-> In (mk_mrow r k) (constraint_rows f)).
  { unfold constraint_rows. rewrite in_flat_map. split.
    - intros H. exists (Some k, r). split; [assumption|now left].
    - intros ([[k'|] r'] & H & E); [|destruct E]. destruct E as [E|[]]. injection E as -> ->. assumption. }
  rewrite C. split.
  - intros H. apply (Permutation_in _ (Permutation_sym (de_rows m f D))) in H. apply (In_nth _ _ (mk_mrow "" KEqual)) in H. destruct H as (i & I & E). exists i. unfold row_at, kind_of. rewrite E. now repeat split.
  - intros (i & I & E1 & E2). apply (Permutation_in _ (de_rows m f D)). unfold row_at in E1. unfold kind_of in E2. subst. destruct (nth i (m_rows m) (mk_mrow "" KEqual)) as [r k] eqn:E. cbn. rewrite <- E. now apply nth_In.
Qed.
Lemma column_in c : In c (map fst (columns_of f)) <-> exists j, (j < length (m_columns m))%nat /\ column_at m j = c.
Proof.
  rewrite <- (de_columns m f D), map_map. cbn. split.
  - intros H. apply (In_nth _ _ (col_name (mk_mcolumn "" false []))) in H. destruct H as (j & J & E). rewrite map_length in J. rewrite map_nth in E. now exists j.
  - intros (j & J & E). subst c. apply (in_map col_name). now apply nth_In.
Qed.
Lemma feasible_agrees : ffeasible f x <-> mfeasible m point.
Proof.
  unfold ffeasible, mfeasible. split; intros [H1 H2]; split.
  - intros i I. rewrite <- value_agrees by assumption. apply holds_agrees; [assumption|]. apply H1. apply row_in. now exists i.
  - intros j J. apply allowed_agrees; [assumption|]. apply H2. apply column_in. now exists j.
  - intros k r R. apply row_in in R. destruct R as (i & I & <- & <-). apply holds_agrees; [assumption|]. rewrite value_agrees by assumption. now apply H1.
  - intros c C. apply column_in in C. destruct C as (j & J & <-). apply allowed_agrees; [assumption|]. now apply H2.
Qed.
End Describes.

(** ** The other direction: a vector of values, one for each column *)
Definition named (m : mps) (y : vec) : valuation := fun c => match column_index (m_columns m) c with Some j => y j | None => 0 end.
Lemma column_index_at m : NoDup (map col_name (m_columns m)) -> forall j, (j < length (m_columns m))%nat -> column_index (m_columns m) (column_at m j) = Some j.
Proof.
  unfold column_at. induction (m_columns m) as [|c l IH]; intros N j J; cbn [length] in J; [lia|]. cbn [map] in N. apply NoDup_cons_iff in N. destruct N as [N1 N2]. cbn [column_index].
  destruct j as [|j]; cbn [nth].
  - assert (K : column_index l (col_name c) = None).
    { clear IH J N2. induction l as [|d l IH]; [reflexivity|]. cbn [column_index]. cbn [map] in N1. rewrite IH by (intros H; apply N1; now right). destruct (String.eqb_spec (col_name d) (col_name c)) as [E|_]; [|reflexivity].
      elim N1. now left. }
    now rewrite K, String.eqb_refl.
  - now rewrite IH by (assumption || lia).
Qed.
Section Solve.
Variables (f : file) (m : mps).
Hypothesis FS : file_solvable f.
Hypothesis D : describes m f.
Let OK : file_rules f := fs_rules f FS.
Lemma named_point y j : (j < length (m_columns m))%nat -> point m (named m y) j = y j.
Proof. intros J. unfold point, named. now rewrite (column_index_at m (column_names f m OK D)). Qed.
Lemma mfeasible_ext y z : (forall j, (j < length (m_columns m))%nat -> y j = z j) -> mfeasible m y -> mfeasible m z.
Proof.
  intros E [H1 H2]. split.
  - intros i I. assert (V : mrow_value m z i = mrow_value m y i) by (apply sum_ext; intros j J; now rewrite E). rewrite V. now apply H1.
  - intros j J. rewrite <- E by assumption. now apply H2.
Qed.
Lemma mcost_ext y z : (forall j, (j < length (m_columns m))%nat -> y j = z j) -> mcost m y = mcost m z.
Proof. intros E. apply sum_ext. intros j J. now rewrite E. Qed.
Lemma named_feasible y : mfeasible m y -> ffeasible f (named m y).
Proof. intros H. apply (feasible_agrees f m OK D). revert H. apply mfeasible_ext. intros j J. symmetry. now apply named_point. Qed.
Lemma named_cost y : fcost f (named m y) = mcost m y.
Proof. rewrite (cost_agrees f m OK D). apply mcost_ext. intros j J. now apply named_point. Qed.
Lemma sense_agrees : m_objective m = fsense f. Proof. exact (de_sense m f D). Qed.

Lemma said_nodup l items : Permutation (said_values m l) (vector_values items) -> NoDup (map (fun '(_, r, _) => r) (vector_values items)) -> NoDup (map fst (ungroup l)).
Proof.
  intros P N. apply (Permutation_NoDup (l' := map (fun '(_, r, _) => r) (said_values m l))) in N; [|apply Permutation_map, Permutation_sym, P].
  assert (E : map (fun '(_, r, _) => r) (said_values m l) = map (row_at m) (map fst (ungroup l))).
  { unfold said_values, ungroup. clear. induction l as [|g l IH]; [reflexivity|]. cbn [flat_map]. rewrite !map_app, IH. f_equal. rewrite !map_map. apply map_ext. intros [i v]. reflexivity. }
  rewrite E in N. now apply NoDup_map_inv in N.
Qed.
Lemma nodup_value (l : list (nat * Qc)) i a b : NoDup (map fst l) -> In (i, a) l -> In (i, b) l -> a = b.
Proof.
  induction l as [|[k v] l IH]; intros N A B; [destruct A|]. cbn [map fst] in N. apply NoDup_cons_iff in N. destruct N as [N1 N2]. destruct A as [A|A], B as [B|B].
  - congruence.
  - injection A as -> ->. elim N1. now apply (in_map fst) in B.
  - injection B as -> ->. elim N1. now apply (in_map fst) in A.
  - now apply IH.
Qed.
Lemma nodup_filter (l : list (nat * Qc)) i : NoDup (map fst l) -> (length (filter (fun e => Nat.eqb (fst e) i) l) <= 1)%nat.
Proof.
  induction l as [|[k v] l IH]; intros N; [cbn; lia|]. cbn [map fst] in N. apply NoDup_cons_iff in N. destruct N as [N1 N2]. cbn [filter fst]. destruct (Nat.eqb_spec k i) as [->|_]; [|now apply IH].
  cbn [length]. enough (Z : filter (fun e => Nat.eqb (fst e) i) l = []) by (rewrite Z; cbn; lia). destruct (filter (fun e : nat * Qc => Nat.eqb (fst e) i) l) as [|[k w] t] eqn:E; [reflexivity|].
  assert (H : In (k, w) (filter (fun e => Nat.eqb (fst e) i) l)) by (rewrite E; now left). apply filter_In in H. destruct H as [H K]. cbn in K. apply Nat.eqb_eq in K. subst k. elim N1. now apply (in_map fst) in H.
Qed.
Lemma rhs_nodup : NoDup (map fst (ungroup (m_rhss m))).
Proof. exact (said_nodup _ _ (de_rhs m f D) (fs_one_rhs f FS)). Qed.
Lemma read_consistent : mps_consistent m /\ ~ repeated_range_rhs m.
Proof.
  split; [constructor|].
  - intros j t A B. destruct (mo_bound m (de_ok m f D) j _ A) as [J _]. apply (bound_iff f m OK D j _ J) in A, B. destruct A as [g A], B as [g' B]. exact (fs_free f FS t g g' _ A B).
  - exact (said_nodup _ _ (de_ranges m f D) (fr_ranges f OK)).
  - intros i r b b' _ A B. exact (nodup_value _ i b b' rhs_nodup A B).
  - intros i b b' _ A B. exact (nodup_value _ i b b' rhs_nodup A B).
  - intros (i & r & _ & _ & _ & L). pose proof (nodup_filter _ i rhs_nodup). lia.
Qed.
Lemma read_wfs (l : svec) lo n : increasing_from lo (map fst l) -> (forall i v, In (i, v) l -> (i < n)%nat /\ v <> 0) -> fwf lo n l.
Proof.
  revert lo. induction l as [|[i v] l IH]; intros lo I H; [exact Logic.I|]. cbn [map fst increasing_from] in I. destruct I as [I1 I2]. destruct (H i v (or_introl eq_refl)) as [B V]. cbn [fwf]. split; [lia|]. split; [assumption|].
  apply IH; [exact I2|]. intros k w K. apply H. now right.
Qed.
Lemma read_solvable : mps_solvable m.
Proof.
  constructor.
  - exact (de_ok m f D).
  - intros c C. destruct (de_values m f D c C) as [I B]. apply read_wfs; [assumption|]. intros i v V. split; [now apply (B i v)|]. apply (fs_coefficients f FS (col_name c) (row_at m i)).
    apply (Permutation_in _ (de_coefficients m f D)). unfold said_coefficients. apply in_or_app. left. apply in_flat_map. exists c. split; [assumption|]. apply in_map_iff. now exists (i, v).
  - intros i r R. pose proof (mo_range m (de_ok m f D) i r R) as I. apply (range_iff f m OK D i r I) in R. destruct R as [g R]. destruct (fs_ranges f FS g _ r R) as (g' & b & B). exists b. apply (rhs_iff f m OK D i b I). now exists g'.
  - intros j J. destruct (fs_domain f FS (column_at m j)) as [v V]; [apply (column_in f m D); now exists j|]. exists v. now apply (allowed_agrees f m OK D j v J).
Qed.

(** ** Answers *)
Lemma answer_named s : map fst (s_values s) = map col_name (m_columns m) -> forall j, (j < length (m_columns m))%nat -> answer_at s (column_at m j) = solution_point s j.
Proof.
  intros E j J. unfold answer_at, solution_point, column_at. pose proof (column_names f m OK D) as N. rewrite <- E in N. assert (L : length (s_values s) = length (m_columns m)) by (rewrite <- (map_length fst), E; apply map_length).
  assert (NM : nth j (map fst (s_values s)) (col_name (mk_mcolumn "" false [])) = col_name (nth j (m_columns m) (mk_mcolumn "" false []))) by (rewrite E; apply map_nth).
  rewrite <- NM. rewrite <- L in J. clear E NM L. revert j J. induction (s_values s) as [|[n v] l IH]; intros j J; cbn [length] in J; [lia|]. cbn [map fst] in N. apply NoDup_cons_iff in N. destruct N as [N1 N2]. destruct j as [|j]; cbn [nth map fst snd find].
  - now rewrite String.eqb_refl.
  - destruct (String.eqb_spec n (nth j (map fst l) (col_name (mk_mcolumn "" false [])))) as [X|_]; [|apply IH; [assumption|lia]]. elim N1. rewrite X. apply nth_In. rewrite map_length. lia.
Qed.
Lemma answer_feasible s : map fst (s_values s) = map col_name (m_columns m) -> mfeasible m (solution_point s) -> ffeasible f (answer_at s).
Proof. intros E H. apply (feasible_agrees f m OK D). revert H. apply mfeasible_ext. intros j J. symmetry. exact (answer_named s E j J). Qed.
Lemma answer_cost s : map fst (s_values s) = map col_name (m_columns m) -> fcost f (answer_at s) = mcost m (solution_point s).
Proof. intros E. rewrite (cost_agrees f m OK D). apply mcost_ext. intros j J. exact (answer_named s E j J). Qed.
Lemma answer_optimal s : map fst (s_values s) = map col_name (m_columns m) -> moptimal m (solution_point s) -> foptimal f (answer_at s).
Proof.
  intros E [F O]. split; [now apply answer_feasible|]. intros y Y. rewrite (answer_cost s E), (cost_agrees f m OK D y), <- sense_agrees. apply O. now apply (feasible_agrees f m OK D).
Qed.
Lemma column_names_agree : map col_name (m_columns m) = map fst (columns_of f).
Proof. rewrite <- (de_columns m f D), map_map. reflexivity. Qed.
Lemma unbounded_named : munbounded m -> funbounded f.
Proof.
  intros [[x X] U]. split; [exists (named m x); now apply named_feasible|]. intros bound. destruct (U bound) as (y & Y & C). exists (named m y). split; [now apply named_feasible|]. rewrite named_cost, <- sense_agrees. exact C.
Qed.
End Solve.

(** ** The theorems *)
Section With.
Variable parse : string -> out mps.
Let reads (text : string) (f : file) : Prop := exists m, parse text = Got m /\ describes m f.
Lemma with_solved f text : file_solvable f -> reads text f -> exists m g, describes m f /\ mps_solvable m /\ to_general m = Got g /\ forall r n fuel, solve_with parse r n fuel text = Got (solve_general r n fuel g).
Proof.
  intros FS T. destruct T as (m & P & D). destruct (proj1 (convert_decides m (de_ok m f D)) (read_consistent f m FS D)) as [g G]. exists m, g. split; [assumption|]. split; [exact (read_solvable f m FS D)|].
  split; [assumption|]. intros r n fuel. unfold solve_with. rewrite P. cbn [obind]. now rewrite G.
Qed.
Lemma with_optimum f text r n fuel s : file_solvable f -> reads text f -> solve_with parse r n fuel text = Got (Ok (Solved_to s)) ->
  map fst (s_values s) = map fst (columns_of f) /\ foptimal f (answer_at s) /\ (fsense f = Minimize -> s_objective s = fcost f (answer_at s)).
Proof.
  intros FS T E. destruct (with_solved f text FS T) as (m & g & D & S & G & R). rewrite R in E. injection E as E. pose proof (sense_agrees f m D) as SE.
  assert (K : map fst (s_values s) = map col_name (m_columns m) /\ moptimal m (solution_point s) /\ (m_objective m = Minimize -> s_objective s = mcost m (solution_point s))).
  { destruct (m_objective m) eqn:O.
    - destruct (solved_minimum m g r n fuel s S G O E) as (A & B & C). split; [assumption|]. split; [assumption|]. intros _. exact C.
    - destruct (solved_maximum m g r n fuel s S G O E) as (A & B). split; [assumption|]. split; [assumption|]. discriminate. }
  destruct K as (A & B & C). split; [rewrite A; exact (column_names_agree f m D)|]. split; [exact (answer_optimal f m FS D s A B)|]. intros O. rewrite (answer_cost f m FS D s A). apply C. now rewrite SE.
Qed.
Lemma with_none f text r n fuel : file_solvable f -> reads text f -> solve_with parse r n fuel text = Got (Ok NoSolution) -> forall x, ~ ffeasible f x.
Proof.
  intros FS T E x X. destruct (with_solved f text FS T) as (m & g & D & S & G & R). rewrite R in E. injection E as E. apply (solved_none m g r n fuel S G E (point m x)). now apply (feasible_agrees f m (fs_rules f FS) D).
Qed.
Lemma with_unbounded f text r n fuel : file_solvable f -> reads text f -> solve_with parse r n fuel text = Got (Ok NoBound) -> funbounded f.
Proof.
  intros FS T E. destruct (with_solved f text FS T) as (m & g & D & S & G & R). rewrite R in E. injection E as E. apply (unbounded_named f m FS D). exact (solved_unbounded m g r n fuel S G E).
Qed.
Lemma with_terminates f text : file_solvable f -> reads text f -> exists fuel a, forall fuel', (fuel <= fuel')%nat -> solve_with parse UseRows FirstProfitable fuel' text = Got (Ok a).
Proof.
  intros FS T. destruct (with_solved f text FS T) as (m & g & D & S & G & R). destruct (solve_read_terminates m g S G) as (fuel & a & H). exists fuel, a. intros fuel' L. now rewrite R, H.
Qed.
Lemma with_no_panic f text n fuel : file_solvable f -> reads text f -> exists result, solve_with parse UseRows n fuel text = Got result /\ result <> Panic.
Proof.
  intros FS T. destruct (with_solved f text FS T) as (m & g & D & S & G & R). exists (solve_general UseRows n fuel g). split; [apply R|]. destruct (convert_solvable m g S G) as [P F]. now apply fresh_rows_no_panic.
Qed.
Lemma with_complete f text x : file_solvable f -> reads text f -> fsense f = Minimize -> foptimal f x ->
  exists fuel s, solve_with parse UseRows FirstProfitable fuel text = Got (Ok (Solved_to s)) /\ s_objective s = fcost f x.
Proof.
  intros FS T M [X O]. destruct (with_terminates f text FS T) as (fuel & a & H). specialize (H fuel (le_n fuel)). exists fuel. destruct a as [s| |].
  - exists s. split; [assumption|]. destruct (with_optimum f text _ _ _ s FS T H) as (_ & [A B] & C). rewrite (C M). specialize (B x X). specialize (O _ A). rewrite M in B, O. cbn in B, O. now apply Qcle_antisym.
  - elim (with_none f text _ _ _ FS T H x X).
  - destruct (with_unbounded f text _ _ _ FS T H) as [_ U]. destruct (U (fcost f x)) as (y & Y & L). rewrite M in L. specialize (O y Y). rewrite M in O. cbn in O. elim (Qclt_not_le _ _ L O).
Qed.
End With.
Lemma text_reads b f text : file_ok f -> spells text f -> exists m, parse_free b text = Got m /\ describes m f.
Proof. exact (free_read b f text). Qed.
