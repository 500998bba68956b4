(** * Applying and undoing a scaling *)
From Verif Require Import SpecScale.
From Verif Require Import StandardP PipelineP.
Local Open Scope Qc_scope.

(** ** Results of applying a scaling, as lists *)
Definition column_scaled (op : Qc -> Qc -> Qc) (sc : scaling) (f : Qc) (column : svec) : svec := map (fun '(i, x) => (i, op x (nthq (sc_rows sc) i * f))) column.
Fixpoint columns_scaled (op : Qc -> Qc -> Qc) (sc : scaling) (j : nat) (columns : list svec) : list svec :=
  match columns with [] => [] | c :: t => column_scaled op sc (nthq (sc_cols sc) j) c :: columns_scaled op sc (S j) t end.
Fixpoint variables_scaled (op inv : Qc -> Qc -> Qc) (sc : scaling) (j : nat) (vars : list variable) : list variable :=
  match vars with [] => [] | v :: t => scale_variable op inv sc (nthq (sc_cols sc) j) v :: variables_scaled op inv sc (S j) t end.
Fixpoint values_scaled (op : Qc -> Qc -> Qc) (sc : scaling) (i : nat) (b : list Qc) : list Qc :=
  match b with [] => [] | x :: t => op x (nthq (sc_rows sc) i) :: values_scaled op sc (S i) t end.
Fixpoint types_scaled (op : Qc -> Qc -> Qc) (sc : scaling) (i : nat) (types : list rel) : list rel :=
  match types with [] => [] | x :: t => scale_type op (nthq (sc_rows sc) i) x :: types_scaled op sc (S i) t end.
Lemma index_nthq l i : (i < length l)%nat -> index l i = Ok (nthq l i).
Proof. intros L. unfold index, nthq. rewrite (nth_error_nth' l 0 L). reflexivity. Qed.
Lemma scale_column_ok op inv sc f c : (forall i v, In (i, v) c -> (i < length (sc_rows sc))%nat) -> scale_column op inv sc f c = Ok (column_scaled op sc f c).
Proof.
  unfold scale_column, column_scaled. induction c as [|[i x] c IH]; intros B; [reflexivity|]. cbn [mapM map]. rewrite index_nthq by (apply (B i x); now left). cbn [bind]. rewrite IH by (intros k v H; apply (B k v); now right). reflexivity.
Qed.
Lemma scale_columns_ok op inv sc : forall cols vars j, length cols = length vars -> (j + length cols <= length (sc_cols sc))%nat -> (forall c i v, In c cols -> In (i, v) c -> (i < length (sc_rows sc))%nat) ->
  scale_columns op inv sc j cols vars = Ok (columns_scaled op sc j cols, variables_scaled op inv sc j vars).
Proof.
  induction cols as [|c cols IH]; intros vars j L B K; destruct vars as [|v vars]; try discriminate; [reflexivity|]. cbn [scale_columns length] in *. rewrite index_nthq by lia. cbn [bind].
  rewrite scale_column_ok by (intros i x H; apply (K c i x); [now left|assumption]). cbn [bind]. rewrite IH; [reflexivity|lia|lia|]. intros c' i x H. apply K. now right.
Qed.
Lemma scale_rows_ok op sc : forall b types i, length b = length types -> (i + length b <= length (sc_rows sc))%nat -> scale_rows op sc i b types = Ok (values_scaled op sc i b, types_scaled op sc i types).
Proof.
  induction b as [|x b IH]; intros types i L B; destruct types as [|t types]; try discriminate; [reflexivity|]. cbn [scale_rows length] in *. rewrite index_nthq by lia. cbn [bind]. rewrite IH; [reflexivity|lia|lia].
Qed.
Definition scaled (op inv : Qc -> Qc -> Qc) (g : general) (sc : scaling) : general :=
  mk_general (g_objective g) (g_fixed g) (g_rows g) (columns_scaled op sc 0 (g_cols g)) (types_scaled op sc 0 (g_types g)) (values_scaled op sc 0 (g_b g))
    (variables_scaled op inv sc 0 (g_vars g)) (g_orig g) (g_from g).
Theorem apply_ok op inv g sc : sizes_agree g -> length (sc_rows sc) = g_rows g -> length (sc_cols sc) = nr_vars g -> apply_scaling op inv g sc = Ok (scaled op inv g sc).
Proof.
  intros (C & T & B & K) R N. unfold apply_scaling. rewrite scale_columns_ok; [|exact C|rewrite N, C; cbn; lia|rewrite R; exact K]. cbn [bind fst snd]. rewrite scale_rows_ok; [reflexivity|congruence|rewrite R, B; cbn; lia].
Qed.

(** ** Reading the scaled program *)
Section Read.
Variables (op inv : Qc -> Qc -> Qc).
Variable sc : scaling.
Lemma columns_scaled_length : forall l j, length (columns_scaled op sc j l) = length l. Proof. induction l as [|c l IH]; intros j; [reflexivity|]. cbn. now rewrite IH. Qed.
Lemma variables_scaled_length : forall l j, length (variables_scaled op inv sc j l) = length l. Proof. induction l as [|c l IH]; intros j; [reflexivity|]. cbn. now rewrite IH. Qed.
Lemma values_scaled_length : forall l j, length (values_scaled op sc j l) = length l. Proof. induction l as [|c l IH]; intros j; [reflexivity|]. cbn. now rewrite IH. Qed.
Lemma types_scaled_length : forall l j, length (types_scaled op sc j l) = length l. Proof. induction l as [|c l IH]; intros j; [reflexivity|]. cbn. now rewrite IH. Qed.
Lemma columns_scaled_nth : forall l j k, (k < length l)%nat -> nth k (columns_scaled op sc j l) [] = column_scaled op sc (nthq (sc_cols sc) (j + k)) (nth k l []).
Proof. induction l as [|c l IH]; intros j k L; cbn [length] in L; [lia|]. destruct k as [|k]; cbn [columns_scaled nth]; [now rewrite Nat.add_0_r|]. rewrite IH by lia. do 2 f_equal. lia. Qed.
Lemma variables_scaled_nth d : forall l j k, (k < length l)%nat -> nth k (variables_scaled op inv sc j l) d = scale_variable op inv sc (nthq (sc_cols sc) (j + k)) (nth k l d).
Proof. induction l as [|c l IH]; intros j k L; cbn [length] in L; [lia|]. destruct k as [|k]; cbn [variables_scaled nth]; [now rewrite Nat.add_0_r|]. rewrite IH by lia. do 2 f_equal. lia. Qed.
Lemma values_scaled_nth : forall l j k, (k < length l)%nat -> nthq (values_scaled op sc j l) k = op (nthq l k) (nthq (sc_rows sc) (j + k)).
Proof. unfold nthq. induction l as [|c l IH]; intros j k L; cbn [length] in L; [lia|]. destruct k as [|k]; cbn [values_scaled nth]; [now rewrite Nat.add_0_r|]. rewrite IH by lia. do 2 f_equal. lia. Qed.
Lemma types_scaled_nth d : forall l j k, (k < length l)%nat -> nth k (types_scaled op sc j l) d = scale_type op (nthq (sc_rows sc) (j + k)) (nth k l d).
Proof. induction l as [|c l IH]; intros j k L; cbn [length] in L; [lia|]. destruct k as [|k]; cbn [types_scaled nth]; [now rewrite Nat.add_0_r|]. rewrite IH by lia. do 2 f_equal. lia. Qed.
Lemma column_scaled_den f c i : (forall x, op 0 x = 0) -> (forall x y z, op (x + y) z = op x z + op y z) -> den (column_scaled op sc f c) i = op (den c i) (nthq (sc_rows sc) i * f).
Proof.
  intros Z D. unfold column_scaled. induction c as [|[k x] c IH]; cbn [map den]; [now rewrite Z|]. rewrite IH, D. destruct (Nat.eqb_spec i k) as [->|]; [reflexivity|]. now rewrite Z.
Qed.
End Read.

Section Scaled.
Variable g : general.
Variable sc : scaling.
Hypothesis A : sizes_agree g.
Hypothesis P : positive_scaling g sc.
Notation g' := (scaled Qcmult Qcdiv g sc).
Notation cf j := (nthq (sc_cols sc) j).
Notation rf i := (nthq (sc_rows sc) i).
Let C : length (g_cols g) = nr_vars g := proj1 A.
Let T : length (g_types g) = g_rows g := proj1 (proj2 A).
Let B : length (g_b g) = g_rows g := proj1 (proj2 (proj2 A)).
Lemma scaled_vars : nr_vars g' = nr_vars g. Proof. apply variables_scaled_length. Qed.
Lemma scaled_coefficient i j : (j < nr_vars g)%nat -> coefficient g' i j = coefficient g i j * (rf i * cf j).
Proof.
  intros L. unfold coefficient. cbn [scaled g_cols]. rewrite columns_scaled_nth by lia. rewrite column_scaled_den by (intros; ring). reflexivity.
Qed.
Lemma scaled_row_value x i : row_value g' x i = rf i * row_value g (scaled_point sc x) i.
Proof.
  unfold row_value. rewrite scaled_vars. rewrite <- sum_scal_l. apply sum_ext. intros j L. rewrite scaled_coefficient by assumption. unfold scaled_point. ring.
Qed.
Lemma le_scaled a b c : 0 < c -> (a * c <= b * c <-> a <= b). Proof. intros H. split; intros L; qnra. Qed.
Lemma scaled_rel i v : (i < g_rows g)%nat -> (rel_holds (row_type g' i) (nthq (g_b g') i) (rf i * v) <-> rel_holds (row_type g i) (nthq (g_b g) i) v).
Proof.
  intros L. destruct P as (_ & _ & _ & PR & _). pose proof (PR i L) as H. unfold row_type. cbn [scaled g_types g_b]. rewrite types_scaled_nth by lia. rewrite values_scaled_nth by lia. cbn [Nat.add].
  rewrite (Qcmult_comm (rf i) v). destruct (nth i (g_types g) Equal) as [|r| |]; cbn [scale_type rel_holds].
  - split; intros E; [|now rewrite E]. apply Qcle_antisym; apply (le_scaled _ _ (rf i) H); rewrite E; apply Qcle_refl.
  - rewrite (le_scaled v _ _ H). replace (nthq (g_b g) i * rf i - r * rf i) with ((nthq (g_b g) i - r) * rf i) by ring. now rewrite (le_scaled _ v _ H).
  - apply (le_scaled v _ _ H).
  - apply (le_scaled _ v _ H).
Qed.
Lemma scaled_bounds j x : (j < nr_vars g)%nat -> (in_bounds (var g' j) x <-> in_bounds (var g j) (x * cf j)).
Proof.
  intros L. destruct P as (_ & _ & _ & _ & PC). pose proof (PC j L) as H. unfold in_bounds, var. cbn [scaled g_vars]. rewrite variables_scaled_nth by exact L. cbn [scale_variable v_lower v_upper Nat.add]. set (v := nth j (g_vars g) no_variable).
  assert (N : cf j <> 0) by (intros E; rewrite E in H; now apply Qclt_not_eq in H).
  assert (D : forall y, y / cf j * cf j = y) by (intros y; field; assumption).
  split; intros [H1 H2]; split.
  - intros l E. rewrite E in H1. pose proof (H1 _ eq_refl) as X. apply (le_scaled _ _ (cf j) H) in X. now rewrite D in X.
  - intros u E. rewrite E in H2. pose proof (H2 _ eq_refl) as X. apply (le_scaled _ _ (cf j) H) in X. now rewrite D in X.
  - intros l E. destruct (v_lower v) as [l0|]; [|discriminate]. injection E as <-. apply (le_scaled _ _ (cf j) H). rewrite D. now apply H1.
  - intros u E. destruct (v_upper v) as [u0|]; [|discriminate]. injection E as <-. apply (le_scaled _ _ (cf j) H). rewrite D. now apply H2.
Qed.
Theorem scaled_feasible x : gfeasible g' x <-> gfeasible g (scaled_point sc x).
Proof.
  unfold gfeasible. rewrite scaled_vars. split; intros [H1 H2]; split.
  - intros i L. apply (scaled_rel i _ L). rewrite <- scaled_row_value. now apply H1.
  - intros j L. apply (scaled_bounds j _ L). now apply H2.
  - intros i L. rewrite scaled_row_value. apply (scaled_rel i _ L). now apply H1.
  - intros j L. apply (scaled_bounds j _ L). now apply H2.
Qed.
Theorem scaled_cost x : gcost g' x - g_fixed g' = sc_cost sc * (gcost g (scaled_point sc x) - g_fixed g).
Proof.
  unfold gcost. cbn [scaled g_fixed]. transitivity (sum (nr_vars g') (fun j => v_cost (var g' j) * x j)); [ring|]. transitivity (sc_cost sc * sum (nr_vars g) (fun j => v_cost (var g j) * scaled_point sc x j)); [|ring].
  rewrite scaled_vars, <- sum_scal_l. apply sum_ext. intros j L. unfold var at 1. cbn [scaled g_vars]. rewrite variables_scaled_nth by exact L. cbn [scale_variable v_cost Nat.add]. unfold scaled_point, var. ring.
Qed.
(** every point of the original program belongs to a point of the scaled program *)
Definition unscaled (x : vec) : vec := fun j => x j / cf j.
Lemma gfeasible_ext (h : general) x y : (forall j, (j < nr_vars h)%nat -> x j = y j) -> gfeasible h x -> gfeasible h y.
Proof.
  intros E [H1 H2]. split; [|intros j L; rewrite <- E by assumption; now apply H2]. intros i L. replace (row_value h y i) with (row_value h x i); [now apply H1|]. apply sum_ext. intros j J. now rewrite E.
Qed.
Lemma gcost_ext (h : general) x y : (forall j, (j < nr_vars h)%nat -> x j = y j) -> gcost h x = gcost h y.
Proof. intros E. unfold gcost. f_equal. apply sum_ext. intros j J. now rewrite E. Qed.
Lemma scaled_unscaled x j : (j < nr_vars g)%nat -> scaled_point sc (unscaled x) j = x j.
Proof.
  intros L. unfold scaled_point, unscaled. destruct P as (_ & _ & _ & _ & PC). pose proof (PC j L) as H. field. intros E. rewrite E in H. now apply Qclt_not_eq in H.
Qed.
Theorem scaled_optimal x : goptimal g' x <-> goptimal g (scaled_point sc x).
Proof.
  unfold goptimal. rewrite scaled_feasible. cbn [scaled g_objective]. assert (PC : 0 < sc_cost sc) by apply P.
  assert (K : forall y, better (g_objective g) (gcost g' x) (gcost g' y) <-> better (g_objective g) (gcost g (scaled_point sc x)) (gcost g (scaled_point sc y))).
  { intros y. pose proof (scaled_cost x) as E1. pose proof (scaled_cost y) as E2. cbn [scaled g_fixed] in E1, E2. fold g' in E1, E2. destruct (g_objective g); cbn [better]; split; intros H; qnra. }
  split; intros [F H]; (split; [assumption|]); intros y FY.
  - assert (FU : gfeasible g' (unscaled y)) by (apply scaled_feasible; apply (gfeasible_ext g y); [intros j L; symmetry; now apply scaled_unscaled|assumption]).
    pose proof (proj1 (K _) (H _ FU)) as X. rewrite (gcost_ext g (scaled_point sc (unscaled y)) y) in X; [exact X|]. intros j L. now apply scaled_unscaled.
  - apply K. apply H. now apply scaled_feasible.
Qed.

(** ** Undoing *)
Lemma column_restored f c : f <> 0 -> (forall i v, In (i, v) c -> rf i <> 0) -> column_scaled Qcdiv sc f (column_scaled Qcmult sc f c) = c.
Proof.
  intros F K. unfold column_scaled. rewrite map_map. rewrite <- (map_id c) at 2. apply map_ext_in. intros [i x] H. f_equal. field. split; [assumption|now apply (K i x)].
Qed.
Lemma columns_restored : forall l j, (forall k, (k < length l)%nat -> cf (j + k) <> 0) -> (forall c i v, In c l -> In (i, v) c -> rf i <> 0) ->
  columns_scaled Qcdiv sc j (columns_scaled Qcmult sc j l) = l.
Proof.
  induction l as [|c l IH]; intros j N K; [reflexivity|]. cbn [columns_scaled]. rewrite column_restored; [|rewrite <- (Nat.add_0_r j); apply N; cbn; lia|intros i v H; apply (K c i v); [now left|assumption]].
  f_equal. apply IH; [intros k L; replace (S j + k)%nat with (j + S k)%nat by lia; apply N; cbn; lia|]. intros c' i v H. apply K. now right.
Qed.
Lemma variable_restored f v : f <> 0 -> sc_cost sc <> 0 -> scale_variable Qcdiv Qcmult sc f (scale_variable Qcmult Qcdiv sc f v) = v.
Proof.
  intros F N. destruct v as [i c l u s fl]. unfold scale_variable. cbn [v_integer v_cost v_lower v_upper v_shift v_flipped]. f_equal; [field; split; assumption| |].
  - destruct l; [|reflexivity]. cbn. f_equal. field. assumption.
  - destruct u; [|reflexivity]. cbn. f_equal. field. assumption.
Qed.
Lemma variables_restored : sc_cost sc <> 0 -> forall l j, (forall k, (k < length l)%nat -> cf (j + k) <> 0) -> variables_scaled Qcdiv Qcmult sc j (variables_scaled Qcmult Qcdiv sc j l) = l.
Proof.
  intros N0. induction l as [|c l IH]; intros j N; [reflexivity|]. cbn [variables_scaled]. rewrite variable_restored; [|rewrite <- (Nat.add_0_r j); apply N; cbn; lia|assumption].
  f_equal. apply IH. intros k L. replace (S j + k)%nat with (j + S k)%nat by lia. apply N. cbn. lia.
Qed.
Lemma values_restored : forall l j, (forall k, (k < length l)%nat -> rf (j + k) <> 0) -> values_scaled Qcdiv sc j (values_scaled Qcmult sc j l) = l.
Proof.
  induction l as [|c l IH]; intros j N; [reflexivity|]. cbn [values_scaled]. f_equal; [field; rewrite <- (Nat.add_0_r j); apply N; cbn; lia|]. apply IH. intros k L. replace (S j + k)%nat with (j + S k)%nat by lia. apply N. cbn. lia.
Qed.
Lemma types_restored : forall l j, (forall k, (k < length l)%nat -> rf (j + k) <> 0) -> types_scaled Qcdiv sc j (types_scaled Qcmult sc j l) = l.
Proof.
  induction l as [|c l IH]; intros j N; [reflexivity|]. cbn [types_scaled]. f_equal.
  - destruct c; try reflexivity. cbn. f_equal. field. rewrite <- (Nat.add_0_r j). apply N. cbn. lia.
  - apply IH. intros k L. replace (S j + k)%nat with (j + S k)%nat by lia. apply N. cbn. lia.
Qed.
Lemma pos_nonzero q : 0 < q -> q <> 0. Proof. intros H E. rewrite E in H. now apply Qclt_not_eq in H. Qed.
Lemma scaled_sizes op inv : sizes_agree (scaled op inv g sc).
Proof.
  destruct A as (C0 & T0 & B0 & K). split; [|split; [|split]].
  - unfold nr_vars. cbn [scaled g_cols g_vars]. rewrite columns_scaled_length, variables_scaled_length. exact C0.
  - cbn [scaled g_types g_rows]. now rewrite types_scaled_length.
  - cbn [scaled g_b g_rows]. now rewrite values_scaled_length.
  - cbn [scaled g_cols g_rows]. intros c i v H. apply (In_nth _ _ []) in H. destruct H as (k & L & <-). rewrite columns_scaled_length in L. rewrite columns_scaled_nth by assumption. intros X. apply in_map_iff in X. destruct X as ([i' x] & E & X). injection E as <- _. apply (K (nth k (g_cols g) []) i' x); [now apply nth_In|assumption].
Qed.
Theorem scaled_back : scale_back g' sc = Ok g.
Proof.
  destruct P as (LR & LC & PC & PR & PV). unfold scale_back. rewrite apply_ok; [|apply scaled_sizes|exact LR|now rewrite scaled_vars]. f_equal. unfold scaled. cbn [g_objective g_fixed g_rows g_cols g_types g_b g_vars g_orig g_from].
  rewrite columns_restored, types_restored, values_restored, variables_restored; [destruct g; reflexivity|now apply pos_nonzero| | | | |].
  - intros k L. apply pos_nonzero, PV. exact L.
  - intros k L. apply pos_nonzero, PR. cbn. lia.
  - intros k L. apply pos_nonzero, PR. cbn. lia.
  - intros k L. apply pos_nonzero, PV. cbn. lia.
  - intros c i v H I. apply pos_nonzero, PR. now apply (proj2 (proj2 (proj2 A)) c i v).
Qed.
End Scaled.
