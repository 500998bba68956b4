(** * Reducing column ranges: the linear program and its first basis *)
From Verif Require Export SpecGeneral RangeP.
Local Open Scope Qc_scope.

Section Problem.
Variables (a : input) (lows highs : list Z).
Hypothesis (O : input_ok a) (XL : extremes a Z.le lows) (XH : extremes a Z.ge highs).
Local Notation m := (height a).
Local Notation w := (width a).
Local Notation cs := (cells a (height a) (width a)).
Local Notation K := (length (cells a (height a) (width a))).
Local Notation at_ k := (nth k (cells a (height a) (width a)) no_cell).

Lemma at_spec k : (k < K)%nat -> (crow (at_ k) < m)%nat /\ (ccol (at_ k) < w)%nat /\ cell a (crow (at_ k)) (ccol (at_ k)) = Some (cval (at_ k)).
Proof using. intros L. pose proof (nth_In _ no_cell L) as H. destruct (at_ k) as [[i j] v]. now apply cells_In in H. Qed.
Lemma cols_lt c : In c cs -> (ccol c < w)%nat.
Proof using. destruct c as [[i j] v]. intros H. now apply cells_In in H. Qed.
Lemma at_of i j v : (i < m)%nat -> (j < w)%nat -> cell a i j = Some v -> exists k, (k < K)%nat /\ at_ k = (i, j, v).
Proof using. intros Li Lj E. apply In_nth. now apply cells_In. Qed.
Lemma some_cells : (0 < K)%nat.
Proof using O. destruct O as (W & NE & _). destruct (NE 0%nat W) as (i & v & Li & E). destruct (at_of i 0 v Li W E) as (k & L & _). lia. Qed.

(** the representative of a cell: the first cell of its column that has the extreme value *)
Definition rep_of (ext : list Z) (k : nat) : nat := first_index (hit ext (ccol (at_ k))) cs.
Lemma rep_of_spec le ext k : extremes a le ext -> (k < K)%nat -> (rep_of ext k < K)%nat /\ ccol (at_ (rep_of ext k)) = ccol (at_ k) /\
  cval (at_ (rep_of ext k)) = nth (ccol (at_ k)) ext 0%Z.
Proof using.
  intros X L. destruct (at_spec k L) as (_ & Lc & _). destruct (ex_at _ _ _ X _ Lc) as (i & Li & E). destruct (at_of _ _ _ Li Lc E) as (q & Lq & Eq).
  destruct (first_index_hit (hit ext (ccol (at_ k))) cs no_cell) as [A B].
  { exists (at_ q). split; [now apply nth_In|]. rewrite Eq. unfold hit, ccol, cval. cbn [fst snd]. now rewrite Nat.eqb_refl, Z.eqb_refl. }
  fold (rep_of ext k) in A, B. split; [assumption|]. unfold hit in B. apply andb_true_iff in B. destruct B as [B1 B2].
  split; [now apply Nat.eqb_eq|now apply Z.eqb_eq].
Qed.
Lemma rep_of_rep le ext k : extremes a le ext -> (k < K)%nat -> rep_of ext (rep_of ext k) = rep_of ext k.
Proof using. intros X L. destruct (rep_of_spec le ext k X L) as (_ & E & _). unfold rep_of at 1. now rewrite E. Qed.
Lemma picks_at le ext first slacks k : extremes a le ext -> (k < K)%nat ->
  nth k (picks ext first slacks (repeat false w) 0 cs) 0%nat = if Nat.eqb (rep_of ext k) k then (first + ccol (at_ k))%nat else (slacks + k)%nat.
Proof using.
  intros X L. destruct (picks_spec ext first slacks w (ex_len _ _ _ X) cs (repeat false w) 0) as [_ P]; [apply repeat_length|exact cols_lt|].
  rewrite P by assumption. rewrite Nat.add_0_r. destruct (at_spec k L) as (_ & Lc & _). rewrite nth_repeat. cbn [negb]. rewrite andb_true_r.
  rewrite (first_index_iff (hit ext (ccol (at_ k))) no_cell cs k L). reflexivity.
Qed.

Lemma row_cases2 (Q : nat -> Prop) : (forall k, (k < K)%nat -> Q k) -> (forall k, (k < K)%nat -> Q (K + k)%nat) -> forall r, (r < K + K)%nat -> Q r.
Proof using. intros H1 H2 r L. destruct (Nat.lt_ge_cases r K) as [C|C]; [now apply H1|]. replace r with (K + (r - K))%nat by lia. apply H2. lia. Qed.

(** ** The constraints *)
Definition all_rows : list svec := map (crows m) cs ++ map (crows (m + w)) cs.
Definition all_b : list Qc := map (fun c => zq (cval c)) cs ++ map (fun c => zq (cval c)) cs.
Definition first_basis : list nat := picks lows m (m + 2 * w) (repeat false w) 0 cs ++ picks highs (m + w) (m + 2 * w + K) (repeat false w) 0 cs.
Lemma all_rows_length : length all_rows = (K + K)%nat.
Proof using. unfold all_rows. rewrite app_length, !map_length. reflexivity. Qed.
Lemma all_rows_upper k : (k < K)%nat -> nth k all_rows [] = crows m (at_ k).
Proof using. intros L. unfold all_rows. rewrite app_nth1 by now rewrite map_length. rewrite (nth_indep _ [] (crows m no_cell)) by now rewrite map_length. apply map_nth. Qed.
Lemma all_rows_lower k : (k < K)%nat -> nth (K + k) all_rows [] = crows (m + w) (at_ k).
Proof using. intros L. unfold all_rows. rewrite app_nth2 by (rewrite map_length; lia). rewrite map_length. replace (K + k - K)%nat with k by lia.
  rewrite (nth_indep _ [] (crows (m + w) no_cell)) by now rewrite map_length. apply map_nth. Qed.
Lemma all_b_upper k : (k < K)%nat -> nthq all_b k = zq (cval (at_ k)).
Proof using. intros L. unfold nthq, all_b. rewrite app_nth1 by now rewrite map_length. rewrite (nth_indep _ 0 (zq (cval no_cell))) by now rewrite map_length. apply (map_nth (fun c => zq (cval c))). Qed.
Lemma all_b_lower k : (k < K)%nat -> nthq all_b (K + k) = zq (cval (at_ k)).
Proof using. intros L. unfold nthq, all_b. rewrite app_nth2 by (rewrite map_length; lia). rewrite map_length. replace (K + k - K)%nat with k by lia.
  rewrite (nth_indep _ 0 (zq (cval no_cell))) by now rewrite map_length. apply (map_nth (fun c => zq (cval c))). Qed.
Lemma one_nonzero : (1 : Qc) <> 0. Proof using. discriminate. Qed.
Lemma crows_wfs first c : (crow c < first)%nat -> (first + ccol c < m + 2 * w)%nat -> wfs (m + 2 * w) (crows first c).
Proof using. intros L1 L2. unfold crows, wfs. cbn [fwf]. repeat split; try lia; exact one_nonzero. Qed.
Lemma rows_wfs i : (i < length all_rows)%nat -> wfs (m + 2 * w) (nth i all_rows []).
Proof using.
  rewrite all_rows_length. intros L. destruct (Nat.lt_ge_cases i K) as [C|C].
  - rewrite all_rows_upper by assumption. destruct (at_spec i C) as (A & B & _). apply crows_wfs; lia.
  - replace i with (K + (i - K))%nat by lia. rewrite all_rows_lower by lia. destruct (at_spec (i - K) ltac:(lia)) as (A & B & _). apply crows_wfs; lia.
Qed.
Lemma crows_den first c j : den (crows first c) j = delta (crow c) j + delta (first + ccol c) j.
Proof using. unfold crows. cbn [den]. unfold delta. rewrite (Nat.eqb_sym j (crow c)), (Nat.eqb_sym j (first + ccol c)). ring. Qed.

(** the columns of the constraints, and the general form they belong to *)
Variable cols : list svec.
Definition range_general : general :=
  mk_general Minimize 0 (K + K) cols (repeat Less K ++ repeat Greater K) all_b (range_variables m w) [] (seq 0 (m + 2 * w)).
Local Notation g := range_general.
Local Notation c := (mk_counts 0 0 K K).
Local Notation d := (new_md cols all_b [] (mk_counts 0 0 K K) (range_variables (height a) (width a))).
Lemma vars_length : nr_vars g = (m + 2 * w)%nat.
Proof. unfold nr_vars, range_general. cbn [g_vars]. unfold range_variables. rewrite !app_length, !repeat_length. lia. Qed.
Lemma var_row i : (i < m)%nat -> var g i = range_variable 0.
Proof. intros L. unfold var, range_general. cbn [g_vars]. unfold range_variables. rewrite app_nth1 by now rewrite repeat_length. apply nth_error_nth. now apply nth_error_repeat. Qed.
Lemma var_min j : (j < w)%nat -> var g (m + j) = range_variable (- (1)).
Proof. intros L. unfold var, range_general. cbn [g_vars]. unfold range_variables. rewrite app_nth2 by (rewrite repeat_length; lia). rewrite repeat_length.
  replace (m + j - m)%nat with j by lia. rewrite app_nth1 by now rewrite repeat_length. apply nth_error_nth. now apply nth_error_repeat. Qed.
Lemma var_max j : (j < w)%nat -> var g (m + w + j) = range_variable 1.
Proof. intros L. unfold var, range_general. cbn [g_vars]. unfold range_variables. rewrite app_nth2 by (rewrite repeat_length; lia). rewrite repeat_length.
  rewrite app_nth2 by (rewrite repeat_length; lia). rewrite repeat_length. replace (m + w + j - m - w)%nat with j by lia. apply nth_error_nth. now apply nth_error_repeat. Qed.
Lemma var_any j : (j < m + 2 * w)%nat -> exists q, var g j = range_variable q.
Proof.
  intros L. destruct (Nat.lt_ge_cases j m) as [C|C]; [rewrite var_row by assumption; eauto|]. destruct (Nat.lt_ge_cases j (m + w)) as [C2|C2].
  - replace j with (m + (j - m))%nat by lia. rewrite var_min by lia. eauto.
  - replace j with (m + w + (j - (m + w)))%nat by lia. rewrite var_max by lia. eauto.
Qed.
Lemma type_upper k : (k < K)%nat -> row_type g k = Less.
Proof. intros L. unfold row_type, range_general. cbn [g_types]. rewrite app_nth1 by now rewrite repeat_length. apply nth_error_nth. now apply nth_error_repeat. Qed.
Lemma type_lower k : (k < K)%nat -> row_type g (K + k) = Greater.
Proof. intros L. unfold row_type, range_general. cbn [g_types]. rewrite app_nth2 by (rewrite repeat_length; lia). rewrite repeat_length.
  replace (K + k - K)%nat with k by lia. apply nth_error_nth. now apply nth_error_repeat. Qed.
Lemma value_nonneg k : (k < K)%nat -> 0 <= zq (cval (at_ k)).
Proof. intros L. destruct (at_spec k L) as (A & B & E). destruct O as (_ & _ & NN). specialize (NN _ _ _ A B E). apply zq_nonneg. assumption. Qed.
Lemma general_shape : standard_shape g c.
Proof.
  split; cbn [n_equal n_range n_less n_greater]; rewrite ?vars_length.
  - reflexivity.
  - reflexivity.
  - intros j L. destruct (var_any j L) as [q ->]. reflexivity.
  - intros i L. change (nthq (g_b g) i) with (nthq all_b i). change (g_rows g) with (K + K)%nat in L. destruct (Nat.lt_ge_cases i K) as [C|C].
    + rewrite all_b_upper by assumption. now apply value_nonneg.
    + replace i with (K + (i - K))%nat by lia. rewrite all_b_lower by lia. apply value_nonneg. lia.
  - intros i L. lia.
  - intros i L. lia.
  - exact type_upper.
  - exact type_lower.
Qed.
Hypothesis cols_len : length cols = (m + 2 * w)%nat.
Hypothesis cols_wf : forall j, (j < m + 2 * w)%nat -> wfs (K + K) (nth j cols []).
Hypothesis cols_val : forall i j, den (nth j cols []) i = den (nth i all_rows []) j.
Lemma general_is_ok : general_ok g.
Proof.
  split; unfold range_general; cbn [g_cols g_from g_types g_b g_rows g_orig]; fold range_general; rewrite ?vars_length.
  - exact cols_len.
  - apply seq_length.
  - rewrite app_length, !repeat_length. reflexivity.
  - unfold all_b. rewrite app_length, !map_length. reflexivity.
  - exact cols_wf.
  - intros i r L E. destruct (Nat.lt_ge_cases i K) as [C|C].
    + rewrite type_upper in E by assumption. discriminate.
    + replace i with (K + (i - K))%nat in E by lia. rewrite type_lower in E by lia. discriminate.
  - intros j l u L _ E. destruct (var_any j L) as [q Eq]. rewrite Eq in E. discriminate.
  - intros [|o] name j E; discriminate.
  - intros [|o] name p q E; discriminate.
  - intros j L E. destruct (var_any j L) as [q Eq]. rewrite Eq in E. discriminate.
Qed.
Lemma data_derived : derived g c d.
Proof.
  destruct (derive_spec g c general_is_ok general_shape) as (d' & E & D). unfold derive_matrix_data, slice in E. cbn in E. injection E as E. rewrite <- E in D. exact D.
Qed.
Lemma no_bounds : md_bounds d = [].
Proof.
  pose proof (dv_upper _ _ _ data_derived) as U. destruct (md_bounds d) as [|j l]; [reflexivity|]. exfalso.
  destruct (proj1 (U j) (or_introl eq_refl)) as [L [u E]]. rewrite vars_length in L. destruct (var_any j L) as [q Eq]. rewrite Eq in E. discriminate.
Qed.
Local Notation p := (md_provider (new_md cols all_b [] (mk_counts 0 0 K K) (range_variables (height a) (width a)))).
Lemma p_rows_eq : p_rows p = (K + K)%nat.
Proof. rewrite (r_total g c d data_derived), no_bounds. cbn. lia. Qed.
Lemma p_cols_eq : p_cols p = (m + 2 * w + K + K)%nat.
Proof. change (p_cols p) with (md_nr_columns d). rewrite (c_total g c d data_derived), no_bounds, vars_length. cbn. lia. Qed.
Lemma col_variable j : (j < m + 2 * w)%nat -> p_col p j = nth j cols [].
Proof.
  intros L. rewrite (col_normal g c d general_shape data_derived) by now rewrite vars_length. unfold bound_entry.
  pose proof (dv_bound _ _ _ data_derived j) as B. rewrite no_bounds, vars_length in B.
  destruct (nth j (md_to_bound d) None) as [q|]; [|apply app_nil_r]. exfalso. pose proof (proj1 (B q L) eq_refl) as E. destruct q; discriminate E.
Qed.
Lemma col_upper_slack k : (k < K)%nat -> p_col p (m + 2 * w + k) = [(k, 1)].
Proof. intros L. pose proof (col_upper g c d data_derived k L) as H. rewrite vars_length in H. cbn [n_range n_equal] in H. rewrite Nat.add_0_r in H. exact H. Qed.
Lemma col_lower_slack k : (k < K)%nat -> p_col p (m + 2 * w + K + k) = [((K + k)%nat, - (1))].
Proof. intros L. pose proof (col_lower g c d data_derived k L) as H. rewrite vars_length in H. cbn [n_range n_equal n_less] in H. rewrite Nat.add_0_r in H. exact H. Qed.
Lemma data_sized : well_sized p.
Proof. pose proof (md_provider_ok g c d general_is_ok general_shape data_derived) as H. split; apply H. Qed.

(** ** The first basis *)
Definition row_rep (r : nat) : nat := if Nat.ltb r K then rep_of lows r else (K + rep_of highs (r - K))%nat.
Definition row_sign (r : nat) : Qc := if Nat.ltb r K then 1 else - (1).
Lemma basis_length : length first_basis = (K + K)%nat.
Proof.
  unfold first_basis. rewrite app_length. f_equal.
  - apply (picks_spec lows m (m + 2 * w) w (ex_len _ _ _ XL)); [apply repeat_length|exact cols_lt].
  - apply (picks_spec highs (m + w) (m + 2 * w + K) w (ex_len _ _ _ XH)); [apply repeat_length|exact cols_lt].
Qed.
Lemma picks_length ext first slacks le : extremes a le ext -> length (picks ext first slacks (repeat false w) 0 cs) = K.
Proof. intros X. apply (picks_spec ext first slacks w (ex_len _ _ _ X)); [apply repeat_length|exact cols_lt]. Qed.
Lemma basis_upper k : (k < K)%nat -> nth k first_basis 0%nat = if Nat.eqb (rep_of lows k) k then (m + ccol (at_ k))%nat else (m + 2 * w + k)%nat.
Proof. intros L. unfold first_basis. rewrite app_nth1 by (rewrite (picks_length _ _ _ _ XL); assumption). now apply (picks_at Z.le). Qed.
Lemma basis_lower k : (k < K)%nat -> nth (K + k) first_basis 0%nat = if Nat.eqb (rep_of highs k) k then (m + w + ccol (at_ k))%nat else (m + 2 * w + K + k)%nat.
Proof. intros L. unfold first_basis. rewrite app_nth2 by (rewrite (picks_length _ _ _ _ XL); lia). rewrite (picks_length _ _ _ _ XL).
  replace (K + k - K)%nat with k by lia. now apply (picks_at Z.ge). Qed.
Lemma row_rep_upper k : (k < K)%nat -> row_rep k = rep_of lows k.
Proof. intros L. unfold row_rep. now rewrite (proj2 (Nat.ltb_lt _ _) L). Qed.
Lemma row_rep_lower k : row_rep (K + k) = (K + rep_of highs k)%nat.
Proof. unfold row_rep. rewrite (proj2 (Nat.ltb_ge _ _)) by lia. f_equal. f_equal. lia. Qed.
Lemma row_rep_lt r : (r < K + K)%nat -> (row_rep r < K + K)%nat.
Proof.
  revert r. apply row_cases2; intros k L.
  - rewrite row_rep_upper by assumption. pose proof (proj1 (rep_of_spec _ lows k XL L)). lia.
  - rewrite row_rep_lower. pose proof (proj1 (rep_of_spec _ highs k XH L)). lia.
Qed.
Lemma row_rep_rep r : (r < K + K)%nat -> row_rep (row_rep r) = row_rep r.
Proof.
  revert r. apply row_cases2; intros k L.
  - rewrite (row_rep_upper k L). pose proof (proj1 (rep_of_spec _ lows k XL L)). rewrite row_rep_upper by assumption. now apply (rep_of_rep Z.le).
  - rewrite !row_rep_lower. f_equal. now apply (rep_of_rep Z.ge).
Qed.
Lemma row_sign_sq r : (r < K + K)%nat -> row_sign r * row_sign r = 1.
Proof. intros _. unfold row_sign. destruct (Nat.ltb r K); ring. Qed.
Lemma same_rep ext le k k' : extremes a le ext -> (k < K)%nat -> (k' < K)%nat -> rep_of ext k' = k' -> Nat.eqb (ccol (at_ k)) (ccol (at_ k')) = Nat.eqb (rep_of ext k) k'.
Proof.
  intros X L L' R. destruct (Nat.eqb_spec (ccol (at_ k)) (ccol (at_ k'))) as [E|E].
  - unfold rep_of. rewrite E. fold (rep_of ext k'). now rewrite R, Nat.eqb_refl.
  - destruct (Nat.eqb_spec (rep_of ext k) k') as [E'|]; [|reflexivity]. exfalso. apply E. destruct (rep_of_spec le ext k X L) as (_ & H & _). now rewrite E' in H.
Qed.
Lemma delta_row i j : (i < m)%nat -> (m <= j)%nat -> delta i j = 0.
Proof. intros. unfold delta. now rewrite (proj2 (Nat.eqb_neq _ _)) by lia. Qed.
Lemma delta_off x i j : delta (x + i) (x + j) = delta i j.
Proof. unfold delta. destruct (Nat.eqb_spec i j) as [->|N]; [now rewrite Nat.eqb_refl|]. now rewrite (proj2 (Nat.eqb_neq _ _)) by lia. Qed.
Lemma basis_range j : In j first_basis -> (j < p_cols p)%nat.
Proof.
  intros H. apply (In_nth _ _ 0%nat) in H. destruct H as (r & L & <-). rewrite basis_length in L. rewrite p_cols_eq. revert r L. apply row_cases2; intros k L; destruct (at_spec k L) as (_ & B & _).
  - rewrite basis_upper by assumption. destruct (Nat.eqb _ _); lia.
  - rewrite basis_lower by assumption. destruct (Nat.eqb _ _); lia.
Qed.
Lemma basis_matrix i r : (i < K + K)%nat -> (r < K + K)%nat -> chosen p first_basis i r = rep_mat row_rep row_sign i r.
Proof.
  intros Li Lr. unfold chosen. revert r Lr. apply row_cases2; intros k Lk; destruct (at_spec k Lk) as (Rk & Ck & _).
  - rewrite basis_upper by assumption. destruct (Nat.eqb_spec (rep_of lows k) k) as [R|R].
    + rewrite col_variable by lia. rewrite cols_val. revert i Li. apply row_cases2; intros q Lq; destruct (at_spec q Lq) as (Rq & Cq & _).
      * rewrite all_rows_upper by assumption. rewrite crows_den, delta_row, delta_off by lia. unfold rep_mat. rewrite row_rep_upper by assumption.
        unfold delta. rewrite (same_rep lows Z.le q k XL Lq Lk R). destruct (Nat.eqb_spec (rep_of lows q) q) as [Rq'|Rq']; [ring|].
        destruct (Nat.eqb_spec q k) as [->|]; [contradiction|]. ring.
      * rewrite all_rows_lower by assumption. rewrite crows_den, delta_row by lia. unfold rep_mat. rewrite row_rep_lower.
        unfold delta. rewrite (proj2 (Nat.eqb_neq (m + w + ccol (at_ q)) (m + ccol (at_ k)))) by lia.
        rewrite (proj2 (Nat.eqb_neq (K + rep_of highs q) k)), (proj2 (Nat.eqb_neq (K + q) k)) by lia. destruct (Nat.eqb _ _); ring.
    + rewrite col_upper_slack by assumption. cbn [den]. revert i Li. apply row_cases2; intros q Lq.
      * unfold rep_mat. rewrite row_rep_upper by assumption. unfold delta, row_sign. rewrite (proj2 (Nat.ltb_lt _ _) Lq). destruct (Nat.eqb_spec q k) as [->|N].
        -- rewrite (proj2 (Nat.eqb_neq _ _) R). ring.
        -- destruct (Nat.eqb_spec (rep_of lows q) k) as [E|E].
           ++ exfalso. apply R. rewrite <- E. now apply (rep_of_rep Z.le).
           ++ destruct (Nat.eqb _ _); ring.
      * unfold rep_mat. rewrite row_rep_lower. unfold delta. rewrite (proj2 (Nat.eqb_neq (K + q) k)), (proj2 (Nat.eqb_neq (K + rep_of highs q) k)) by lia. destruct (Nat.eqb _ _); ring.
  - rewrite basis_lower by assumption. destruct (Nat.eqb_spec (rep_of highs k) k) as [R|R].
    + rewrite col_variable by lia. rewrite cols_val. revert i Li. apply row_cases2; intros q Lq; destruct (at_spec q Lq) as (Rq & Cq & _).
      * rewrite all_rows_upper by assumption. rewrite crows_den, delta_row by lia. unfold rep_mat. rewrite row_rep_upper by assumption.
        unfold delta. rewrite (proj2 (Nat.eqb_neq (m + ccol (at_ q)) (m + w + ccol (at_ k)))) by lia.
        pose proof (proj1 (rep_of_spec _ lows q XL Lq)). rewrite (proj2 (Nat.eqb_neq (rep_of lows q) (K + k))), (proj2 (Nat.eqb_neq q (K + k))) by lia. destruct (Nat.eqb _ _); ring.
      * rewrite all_rows_lower by assumption. rewrite crows_den, delta_row, delta_off by lia. unfold rep_mat. rewrite row_rep_lower. rewrite !delta_off.
        unfold delta. rewrite (same_rep highs Z.ge q k XH Lq Lk R). destruct (Nat.eqb_spec (K + rep_of highs q) (K + q)) as [Rq'|Rq']; [ring|].
        destruct (Nat.eqb_spec q k) as [->|]; [lia|]. ring.
    + rewrite col_lower_slack by assumption. cbn [den]. revert i Li. apply row_cases2; intros q Lq.
      * unfold rep_mat. rewrite row_rep_upper by assumption. pose proof (proj1 (rep_of_spec _ lows q XL Lq)). unfold delta. rewrite (proj2 (Nat.eqb_neq q (K + k))), (proj2 (Nat.eqb_neq (rep_of lows q) (K + k))) by lia. destruct (Nat.eqb _ _); ring.
      * unfold rep_mat. rewrite row_rep_lower. rewrite !delta_off. unfold delta, row_sign. rewrite (proj2 (Nat.ltb_ge (K + q) K)) by lia. destruct (Nat.eqb_spec q k) as [->|N].
        -- rewrite Nat.eqb_refl, (proj2 (Nat.eqb_neq _ _) R), (proj2 (Nat.eqb_neq (K + rep_of highs k) (K + k))) by lia. ring.
        -- rewrite (proj2 (Nat.eqb_neq (K + q) (K + k))) by lia. destruct (Nat.eqb_spec (rep_of highs q) k) as [E|E].
           ++ exfalso. apply R. rewrite <- E. now apply (rep_of_rep Z.ge).
           ++ destruct (Nat.eqb _ _); ring.
Qed.
Lemma basis_feasible : feasible_basis p first_basis.
Proof.
  exists (rep_inv row_rep row_sign). split; [split; [now rewrite basis_length, p_rows_eq|split; [exact basis_range|]]|].
  - rewrite p_rows_eq. apply inverse_ext with (rep_inv row_rep row_sign) (rep_mat row_rep row_sign); [apply meq_refl| |].
    + intros i r Li Lr. symmetry. now apply basis_matrix.
    + apply rep_is_inverse; [exact row_rep_lt|exact row_rep_rep|exact row_sign_sq].
  - rewrite p_rows_eq. intros r Lr.
    rewrite (rep_inv_value (K + K) row_rep row_sign row_rep_lt (nthq (p_rhs p)) r Lr).
    pose proof (rhs_constraint g c d general_is_ok data_derived) as HB. change (g_rows g) with (K + K)%nat in HB. change (g_b g) with all_b in HB.
    pose proof (row_rep_lt r Lr) as LR. rewrite !HB by assumption. clear HB LR. revert r Lr. apply row_cases2; intros k Lk; destruct (at_spec k Lk) as (Rk & Ck & Ek).
    + rewrite row_rep_upper by assumption. destruct (rep_of_spec _ lows k XL Lk) as (L2 & _ & V). rewrite !all_b_upper by assumption. rewrite V.
      unfold row_sign. rewrite (proj2 (Nat.ltb_lt _ _) Lk). pose proof (value_nonneg k Lk) as P1. pose proof (ex_le _ _ _ XL _ _ _ Rk Ck Ek) as P2.
      apply zq_le in P2. destruct (Nat.eqb _ _); [assumption|qlra].
    + rewrite row_rep_lower. destruct (rep_of_spec _ highs k XH Lk) as (L2 & _ & V). rewrite !all_b_lower by assumption. rewrite V.
      unfold row_sign. rewrite (proj2 (Nat.ltb_ge (K + k) K)) by lia. pose proof (value_nonneg k Lk) as P1. pose proof (ex_le _ _ _ XH _ _ _ Rk Ck Ek) as P2.
      apply Z.ge_le, zq_le in P2. destruct (Nat.eqb _ _); [assumption|qlra].
Qed.
End Problem.
