(** * The computational form describes the same problem as the general form it is derived from *)
From Verif Require Import SpecGeneral SparseP KindP KeptP ArtP FinishP StandardP StandardQ StandardR.
Local Open Scope Qc_scope.

Definition within (base cnt i : nat) : bool := Nat.leb base i && Nat.ltb i (base + cnt).
Lemma within_true base cnt i : within base cnt i = true <-> (base <= i < base + cnt)%nat.
Proof. unfold within. rewrite andb_true_iff, Nat.leb_le, Nat.ltb_lt. lia. Qed.
Lemma within_false base cnt i : within base cnt i = false <-> ~ (base <= i < base + cnt)%nat.
Proof. rewrite <- within_true. now destruct (within base cnt i). Qed.
Lemma group_sum base cnt v f i :
  sum cnt (fun k => den [((base + k)%nat, v)] i * f k) = if within base cnt i then v * f (i - base)%nat else 0.
Proof.
  destruct (within base cnt i) eqn:E.
  - apply within_true in E. rewrite (sum_single _ (i - base)%nat).
    + cbn [den]. replace (base + (i - base))%nat with i by lia. rewrite Nat.eqb_refl. ring.
    + lia.
    + intros k Lk N. cbn [den]. rewrite (proj2 (Nat.eqb_neq i (base + k))) by lia. ring.
  - apply within_false in E. apply sum_zero. intros k Lk. cbn [den]. rewrite (proj2 (Nat.eqb_neq i (base + k))) by lia. ring.
Qed.

(** ** Numbering the upper bounds *)
Lemma number_bounds vars : forall k tb bs, length tb = k -> 
  (forall j, (j < k)%nat -> forall q, nth j tb None = Some q <-> nth_error bs q = Some j) ->
  (forall j, In j bs -> (j < k)%nat) -> increasing_from 0 bs ->
  let st := fold_left number_bound (number_from k vars) (tb, bs) in
  length (fst st) = (k + length vars)%nat /\
  (forall j, (j < k + length vars)%nat -> forall q, nth j (fst st) None = Some q <-> nth_error (snd st) q = Some j) /\
  (forall j, (k <= j < k + length vars)%nat -> (In j (snd st) <-> exists u, v_upper (nth (j - k) vars no_variable) = Some u)) /\
  (forall j, (j < k)%nat -> In j (snd st) <-> In j bs) /\
  (forall j, In j (snd st) -> (j < k + length vars)%nat) /\ increasing_from 0 (snd st).
Proof.
  induction vars as [|v vars IH]; intros k tb bs L H B I; cbn [number_from fold_left length].
  - cbn [fst snd]. rewrite Nat.add_0_r. split; [assumption|]. split; [assumption|]. split; [intros; lia|]. split; [tauto|]. split; assumption.
  - assert (STEP : number_bound (tb, bs) (k, v) = match v_upper v with Some _ => (tb ++ [Some (length bs)], bs ++ [k]) | None => (tb ++ [None], bs) end)
      by (unfold number_bound; cbn [fst snd]; reflexivity).
    rewrite STEP. clear STEP.
    assert (BE : forall q j, nth_error bs q = Some j -> (q < length bs)%nat) by (intros q j E; apply nth_error_Some; congruence).
    destruct (v_upper v) as [u|] eqn:U.
    + destruct (IH (S k) (tb ++ [Some (length bs)]) (bs ++ [k])) as (H1 & H2 & H3 & H4 & H5 & H6).
      * rewrite app_length. cbn. lia.
      * intros j Lj q. destruct (Nat.eq_dec j k) as [->|N].
        -- rewrite app_nth2 by lia. rewrite L, Nat.sub_diag. cbn [nth]. split.
           ++ intros E. injection E as <-. rewrite nth_error_app2 by lia. now rewrite Nat.sub_diag.
           ++ intros E. destruct (Nat.lt_ge_cases q (length bs)) as [C|C].
              ** rewrite nth_error_app1 in E by assumption. apply nth_error_In in E. apply B in E. lia.
              ** assert (q < length (bs ++ [k]))%nat by (apply nth_error_Some; congruence). rewrite app_length in H0. cbn in H0.
                 f_equal. lia.
        -- rewrite app_nth1 by lia. rewrite H by lia. split; intros E.
           ++ rewrite nth_error_app1; eauto.
           ++ destruct (Nat.lt_ge_cases q (length bs)) as [C|C]; [now rewrite nth_error_app1 in E by assumption|].
              exfalso. assert (q < length (bs ++ [k]))%nat by (apply nth_error_Some; congruence). rewrite app_length in H0. cbn in H0.
              rewrite nth_error_app2 in E by lia. replace (q - length bs)%nat with 0%nat in E by lia. cbn in E. injection E as ->. lia.
      * intros j Hj. apply in_app_iff in Hj. destruct Hj as [Hj|[->|[]]]; [apply B in Hj|]; lia.
      * clear - I B.
        assert (G : forall l lo, (forall j, In j l -> (j < k)%nat) -> (lo <= k)%nat -> increasing_from lo l -> increasing_from lo (l ++ [k])).
        { induction l as [|x l IHl]; intros lo Bl Lk Il; cbn in *; [now split|]. destruct Il as [I1 I2]. split; [assumption|].
          apply IHl; [auto| |assumption]. specialize (Bl x (or_introl eq_refl)). lia. }
        apply G; [assumption|lia|assumption].
      * cbn [length] in *. rewrite <- Nat.add_succ_comm in *.
        split; [lia|]. split; [intros; apply H2; lia|]. split; [|split; [|split]].
        -- intros j Lj. destruct (Nat.eq_dec j k) as [->|N].
           ++ rewrite Nat.sub_diag. cbn [nth]. rewrite H4 by lia. split; [intros _; now exists u|intros _; apply in_app_iff; right; now left].
           ++ rewrite H3 by lia. replace (j - k)%nat with (S (j - S k)) by lia. reflexivity.
        -- intros j Lj. rewrite H4 by lia. rewrite in_app_iff. cbn. intuition lia.
        -- exact H5.
        -- exact H6.
    + destruct (IH (S k) (tb ++ [None]) bs) as (H1 & H2 & H3 & H4 & H5 & H6).
      * rewrite app_length. cbn. lia.
      * intros j Lj q. destruct (Nat.eq_dec j k) as [->|N].
        -- rewrite app_nth2 by lia. rewrite L, Nat.sub_diag. cbn [nth]. split; [discriminate|]. intros E. apply nth_error_In, B in E. lia.
        -- rewrite app_nth1 by lia. apply H. lia.
      * intros j Hj. apply B in Hj. lia.
      * assumption.
      * cbn [length] in *. rewrite <- Nat.add_succ_comm in *.
        split; [lia|]. split; [intros; apply H2; lia|]. split; [|split; [|split]].
        -- intros j Lj. destruct (Nat.eq_dec j k) as [->|N].
           ++ rewrite Nat.sub_diag. cbn [nth]. rewrite H4 by lia. split; [intros Hj; apply B in Hj; lia|]. intros [u Hu]. congruence.
           ++ rewrite H3 by lia. replace (j - k)%nat with (S (j - S k)) by lia. reflexivity.
        -- intros j Lj. apply H4. lia.
        -- exact H5.
        -- exact H6.
Qed.

(** ** What [derive_matrix_data] returns *)
Record derived (g : general) (c : counts) (d : matrix_data) : Prop := mk_derived {
  dv_cols : md_cols d = g_cols g;
  dv_b : md_b d = g_b g;
  dv_counts : md_counts d = c;
  dv_vars : md_vars d = g_vars g;
  dv_ranges : length (md_ranges d) = n_range c;
  dv_range : forall k, (k < n_range c)%nat -> row_type g (n_equal c + k) = Range (nthq (md_ranges d) k);
  dv_bound : forall j q, (j < nr_vars g)%nat -> (nth j (md_to_bound d) None = Some q <-> nth_error (md_bounds d) q = Some j);
  dv_upper : forall j, In j (md_bounds d) <-> (j < nr_vars g)%nat /\ exists u, v_upper (var g j) = Some u;
  dv_inc : increasing_from 0 (md_bounds d)
}.

Lemma derive_spec g c : general_ok g -> standard_shape g c -> exists d, derive_matrix_data g c = Ok d /\ derived g c d.
Proof.
  intros P S. unfold derive_matrix_data.
  assert (LT : (n_equal c + n_range c <= length (g_types g))%nat) by (rewrite (gok_types _ P), (ss_rows _ _ S); lia).
  unfold slice. rewrite (proj2 (Nat.leb_le (n_equal c) (n_equal c + n_range c))) by lia. rewrite (proj2 (Nat.leb_le _ _) LT). cbn [andb bind].
  replace (n_equal c + n_range c - n_equal c)%nat with (n_range c) by lia.
  set (ts := firstn (n_range c) (skipn (n_equal c) (g_types g))).
  assert (Lts : length ts = n_range c) by (unfold ts; rewrite firstn_length, skipn_length; lia).
  assert (Nts : forall k, (k < n_range c)%nat -> nth k ts Equal = row_type g (n_equal c + k)).
  { intros k Lk. unfold ts, row_type. rewrite <- (firstn_skipn (n_equal c) (g_types g)) at 2.
    rewrite app_nth2 by (rewrite firstn_length; lia). rewrite firstn_length, Nat.min_l by lia.
    replace (n_equal c + k - n_equal c)%nat with k by lia.
    rewrite <- (firstn_skipn (n_range c) (skipn (n_equal c) (g_types g))) at 2.
    rewrite app_nth1; [reflexivity|]. fold ts. lia. }
  destruct (mapM_total range_size ts) as [rs Er].
  { intros t Ht. apply (In_nth _ _ Equal) in Ht. destruct Ht as (k & Lk & <-). rewrite Lts in Lk. rewrite Nts by assumption.
    destruct (ss_range _ _ S k Lk) as [r ->]. eexists; reflexivity. }
  rewrite Er. cbn [bind]. eexists. split; [reflexivity|]. unfold new_md.
  destruct (mapM_ok _ _ _ Er) as [Lr Nr].
  pose proof (number_bounds (g_vars g) 0 [] [] eq_refl) as NB. 
  destruct (fold_left number_bound (number_from 0 (g_vars g)) ([], [])) as [tb bs] eqn:EF. cbn [fst snd] in NB.
  destruct NB as (N1 & N2 & N3 & _ & N5 & N6).
  { intros; lia. } { intros j []. } { exact I. }
  split; cbn [md_cols md_b md_counts md_vars md_ranges md_to_bound md_bounds]; try reflexivity.
  - lia.
  - intros k Lk. destruct (Nr k (nth k ts Equal)) as (y & Ey & Ny); [apply nth_error_nth'; lia|].
    rewrite Nts in Ey by assumption. destruct (row_type g (n_equal c + k)); cbn in Ey; try discriminate. injection Ey as ->.
    f_equal. unfold nthq. symmetry. now apply nth_error_nth.
  - intros j q Lj. apply N2. exact Lj.
  - intros j. split.
    + intros Hj. specialize (N5 j Hj). split; [exact N5|]. apply N3 in Hj; [|lia]. now rewrite Nat.sub_0_r in Hj.
    + intros [Lj Hu]. apply N3; [unfold nr_vars in Lj; lia|]. now rewrite Nat.sub_0_r.
  - exact N6.
Qed.

(** the variable of the [k]-th upper bound *)
Definition bidx (d : matrix_data) (k : nat) : nat := nth k (md_bounds d) 0%nat.

Section Derived.
Variables (g : general) (c : counts) (d : matrix_data).
Hypothesis (P : general_ok g) (SH : standard_shape g c) (D : derived g c d).
Local Notation nv := (nr_vars g).
Local Notation ne := (n_equal c).
Local Notation nr := (n_range c).
Local Notation nl := (n_less c).
Local Notation ng := (n_greater c).
Local Notation nb := (length (md_bounds d)).
Local Notation B := (bidx d).

Lemma e_eq : eq_end d = ne. Proof. unfold eq_end. now rewrite (dv_counts _ _ _ D). Qed.
Lemma e_range : range_end d = (ne + nr)%nat. Proof. unfold range_end. now rewrite e_eq, (dv_counts _ _ _ D). Qed.
Lemma e_upper : upper_end d = (ne + nr + nl)%nat. Proof. unfold upper_end. now rewrite e_range, (dv_counts _ _ _ D). Qed.
Lemma e_lower : lower_end d = (ne + nr + nl + ng)%nat. Proof. unfold lower_end. now rewrite e_upper, (dv_counts _ _ _ D). Qed.
Lemma e_lower_rows : lower_end d = g_rows g. Proof. rewrite e_lower. symmetry. exact (ss_rows _ _ SH). Qed.
Lemma e_bound : bound_end d = (ne + nr + nl + ng + nb)%nat. Proof. unfold bound_end. now rewrite e_lower. Qed.
Lemma c_normal : normal_cend d = nv. Proof. unfold normal_cend. now rewrite (dv_vars _ _ _ D). Qed.
Lemma c_range : range_cend d = (nv + nr)%nat. Proof. unfold range_cend. now rewrite c_normal, (dv_counts _ _ _ D). Qed.
Lemma c_upper : upper_cend d = (nv + nr + nl)%nat. Proof. unfold upper_cend. now rewrite c_range, (dv_counts _ _ _ D). Qed.
Lemma c_lower : lower_cend d = (nv + nr + nl + ng)%nat. Proof. unfold lower_cend. now rewrite c_upper, (dv_counts _ _ _ D). Qed.
Lemma c_bound : bound_cend d = (nv + nr + nl + ng + nb)%nat. Proof. unfold bound_cend. now rewrite c_lower. Qed.
Lemma c_total : md_nr_columns d = (nv + nr + nl + ng + nb + nr)%nat.
Proof. unfold md_nr_columns, slack_bound_cend. now rewrite c_bound, (dv_counts _ _ _ D). Qed.
Lemma r_total : p_rows (md_provider d) = (ne + nr + nl + ng + nb + nr)%nat.
Proof. cbn. unfold md_nr_constraints, md_nr_variable_bounds. rewrite e_lower, (dv_counts _ _ _ D). lia. Qed.

Ltac ends := rewrite ?e_eq, ?e_range, ?e_upper, ?e_lower, ?e_bound, ?c_normal, ?c_range, ?c_upper, ?c_lower, ?c_bound in *.
Ltac bool_lt := repeat match goal with |- context [Nat.ltb ?a ?b] => destruct (Nat.ltb_spec a b); try lia end.

Lemma class_normal j : (j < nv)%nat -> classify d j = (Normal, j).
Proof. intros L. unfold classify. ends. bool_lt. reflexivity. Qed.
Lemma class_range k : (k < nr)%nat -> classify d (nv + k) = (RangeSlack, k).
Proof. intros L. unfold classify. ends. bool_lt. f_equal. lia. Qed.
Lemma class_upper k : (k < nl)%nat -> classify d (nv + nr + k) = (UpperSlack, k).
Proof. intros L. unfold classify. ends. bool_lt. f_equal. lia. Qed.
Lemma class_lower k : (k < ng)%nat -> classify d (nv + nr + nl + k) = (LowerSlack, k).
Proof. intros L. unfold classify. ends. bool_lt. f_equal. lia. Qed.
Lemma class_bound k : (k < nb)%nat -> classify d (nv + nr + nl + ng + k) = (BoundSlack, k).
Proof. intros L. unfold classify. ends. bool_lt. f_equal. lia. Qed.
Lemma class_slack k : (k < nr)%nat -> classify d (nv + nr + nl + ng + nb + k) = (SlackBoundSlack, k).
Proof. intros L. unfold classify. ends. bool_lt. f_equal. lia. Qed.

(** bounds *)
Lemma bound_lt k : (k < nb)%nat -> (B k < nv)%nat /\ v_upper (var g (B k)) = Some (upper_of (g_vars g) (B k)).
Proof.
  intros L. destruct (proj1 (dv_upper _ _ _ D (B k)) (nth_In _ _ L)) as [Lj [u Hu]]. split; [assumption|].
  unfold upper_of. rewrite (nth_error_nth' _ no_variable) by exact Lj. fold (var g (B k)). now rewrite Hu.
Qed.
Lemma bound_inj k k' : (k < nb)%nat -> (k' < nb)%nat -> B k = B k' -> k = k'.
Proof. intros L L'. apply (NoDup_nth (md_bounds d) 0%nat); try assumption. apply (increasing_NoDup _ _ (dv_inc _ _ _ D)). Qed.
Lemma bound_of j : (j < nv)%nat -> match nth j (md_to_bound d) None with
   | Some k => (k < nb)%nat /\ B k = j | None => v_upper (var g j) = None end.
Proof.
  intros L. destruct (nth j (md_to_bound d) None) as [k|] eqn:E.
  - apply (dv_bound _ _ _ D j k L) in E. split; [apply nth_error_Some; congruence|now apply nth_error_nth].
  - destruct (v_upper (var g j)) as [u|] eqn:U; [|reflexivity]. exfalso.
    assert (H : In j (md_bounds d)) by (apply (dv_upper _ _ _ D); split; [assumption|now exists u]).
    apply (In_nth_error) in H. destruct H as [q Hq]. apply (dv_bound _ _ _ D j q L) in Hq. congruence.
Qed.

(** the columns *)
Definition bound_entry (j : nat) : svec :=
  match nth j (md_to_bound d) None with Some k => [((g_rows g + k)%nat, 1)] | None => [] end.
Lemma col_normal j : (j < nv)%nat -> p_col (md_provider d) j = nth j (g_cols g) [] ++ bound_entry j.
Proof.
  intros L. change (p_col (md_provider d) j) with (column_entries (md_column_at d j)). unfold md_column_at. rewrite class_normal by assumption.
  cbn beta iota. unfold bound_row_index, bound_entry. rewrite class_normal by assumption. rewrite (dv_cols _ _ _ D), e_lower_rows.
  destruct (nth j (md_to_bound d) None) as [k|]; cbn [column_entries]; [reflexivity|now rewrite app_nil_r].
Qed.
Lemma col_range k : (k < nr)%nat -> p_col (md_provider d) (nv + k) = [((ne + k)%nat, 1); ((ne + nr + nl + ng + nb + k)%nat, 1)].
Proof. intros L. cbn. unfold md_column_at. rewrite class_range by assumption. ends. reflexivity. Qed.
Lemma col_upper k : (k < nl)%nat -> p_col (md_provider d) (nv + nr + k) = [((ne + nr + k)%nat, 1)].
Proof. intros L. cbn. unfold md_column_at. rewrite class_upper by assumption. ends. reflexivity. Qed.
Lemma col_lower k : (k < ng)%nat -> p_col (md_provider d) (nv + nr + nl + k) = [((ne + nr + nl + k)%nat, - (1))].
Proof. intros L. cbn. unfold md_column_at. rewrite class_lower by assumption. ends. reflexivity. Qed.
Lemma col_bound k : (k < nb)%nat -> p_col (md_provider d) (nv + nr + nl + ng + k) = [((ne + nr + nl + ng + k)%nat, 1)].
Proof. intros L. cbn. unfold md_column_at. rewrite class_bound by assumption. ends. reflexivity. Qed.
Lemma col_slack k : (k < nr)%nat -> p_col (md_provider d) (nv + nr + nl + ng + nb + k) = [((ne + nr + nl + ng + nb + k)%nat, 1)].
Proof. intros L. cbn. unfold md_column_at. rewrite class_slack by assumption. ends. reflexivity. Qed.

Lemma coefficient_high i j : (g_rows g <= i)%nat -> (j < nv)%nat -> coefficient g i j = 0.
Proof. intros Li Lj. unfold coefficient. apply (den_above 0 (g_rows g)); [now apply (gok_sorted _ P)|assumption]. Qed.
Lemma bound_sum x i : sum nv (fun j => den (bound_entry j) i * x j) =
  if within (g_rows g) nb i then x (B (i - g_rows g)%nat) else 0.
Proof.
  destruct (within (g_rows g) nb i) eqn:W.
  - apply within_true in W. destruct (bound_lt (i - g_rows g)%nat ltac:(lia)) as [Lb _].
    rewrite (sum_single _ (B (i - g_rows g)%nat) _ Lb).
    + unfold bound_entry. rewrite (proj2 (dv_bound _ _ _ D _ (i - g_rows g)%nat Lb)) by (apply nth_error_nth'; lia).
      cbn [den]. rewrite (proj2 (Nat.eqb_eq i _)) by lia. ring.
    + intros j Lj N. unfold bound_entry. pose proof (bound_of j Lj) as H. destruct (nth j (md_to_bound d) None) as [k|]; [|cbn; ring].
      destruct H as [Lk Ek]. cbn [den]. destruct (Nat.eqb_spec i (g_rows g + k)) as [E|_]; [|ring].
      exfalso. apply N. rewrite <- Ek. cbv beta. f_equal. lia.
  - apply within_false in W. apply sum_zero. intros j Lj. unfold bound_entry. pose proof (bound_of j Lj) as H.
    destruct (nth j (md_to_bound d) None) as [k|]; [|cbn; ring]. destruct H as [Lk Ek]. cbn [den].
    rewrite (proj2 (Nat.eqb_neq i (g_rows g + k))) by lia. ring.
Qed.

(** the left-hand side of every row *)
Definition slack_sum (z : vec) (i : nat) : Qc :=
  (if within (g_rows g) nb i then z (B (i - g_rows g)%nat) else 0) +
  ((if within ne nr i then z (nv + (i - ne))%nat else 0) + (if within (ne + nr + nl + ng + nb) nr i then z (nv + (i - (ne + nr + nl + ng + nb)))%nat else 0)) +
  (if within (ne + nr) nl i then z (nv + nr + (i - (ne + nr)))%nat else 0) +
  (if within (ne + nr + nl) ng i then - z (nv + nr + nl + (i - (ne + nr + nl)))%nat else 0) +
  (if within (ne + nr + nl + ng) nb i then z (nv + nr + nl + ng + (i - (ne + nr + nl + ng)))%nat else 0) +
  (if within (ne + nr + nl + ng + nb) nr i then z (nv + nr + nl + ng + nb + (i - (ne + nr + nl + ng + nb)))%nat else 0).
Lemma row_sum z i : sum (p_cols (md_provider d)) (fun j => den (p_col (md_provider d) j) i * z j) = row_value g z i + slack_sum z i.
Proof.
  change (p_cols (md_provider d)) with (md_nr_columns d). rewrite c_total, !sum_add.
  rewrite (sum_ext nv _ (fun j => coefficient g i j * z j + den (bound_entry j) i * z j)).
  2:{ intros j Lj. rewrite col_normal by assumption. rewrite den_app. unfold coefficient. ring. }
  rewrite sum_plus, bound_sum. fold (row_value g z i).
  rewrite (sum_ext nr _ (fun k => den [((ne + k)%nat, 1)] i * z (nv + k)%nat + den [((ne + nr + nl + ng + nb + k)%nat, 1)] i * z (nv + k)%nat)).
  2:{ intros k Lk. rewrite col_range by assumption. cbn [den]. ring. }
  rewrite sum_plus, (group_sum ne nr 1 (fun k => z (nv + k)%nat)), (group_sum (ne + nr + nl + ng + nb) nr 1 (fun k => z (nv + k)%nat)).
  rewrite (sum_ext nl _ (fun k => den [((ne + nr + k)%nat, 1)] i * z (nv + nr + k)%nat)) by (intros k Lk; now rewrite col_upper by assumption).
  rewrite (group_sum (ne + nr) nl 1 (fun k => z (nv + nr + k)%nat)).
  rewrite (sum_ext ng _ (fun k => den [((ne + nr + nl + k)%nat, - (1))] i * z (nv + nr + nl + k)%nat)) by (intros k Lk; now rewrite col_lower by assumption).
  rewrite (group_sum (ne + nr + nl) ng (- (1)) (fun k => z (nv + nr + nl + k)%nat)).
  rewrite (sum_ext nb _ (fun k => den [((ne + nr + nl + ng + k)%nat, 1)] i * z (nv + nr + nl + ng + k)%nat)) by (intros k Lk; now rewrite col_bound by assumption).
  rewrite (group_sum (ne + nr + nl + ng) nb 1 (fun k => z (nv + nr + nl + ng + k)%nat)).
  rewrite (sum_ext nr (fun j => den (p_col (md_provider d) (nv + nr + nl + ng + nb + j)) i * _)
            (fun k => den [((ne + nr + nl + ng + nb + k)%nat, 1)] i * z (nv + nr + nl + ng + nb + k)%nat)) by (intros k Lk; now rewrite col_slack by assumption).
  rewrite (group_sum (ne + nr + nl + ng + nb) nr 1 (fun k => z (nv + nr + nl + ng + nb + k)%nat)).
  unfold slack_sum. repeat match goal with |- context [if ?b then _ else _] => destruct b end; ring.
Qed.
Ltac pick := repeat match goal with |- context [within ?a ?b ?i] =>
   first [rewrite (proj2 (within_true a b i)) by lia | rewrite (proj2 (within_false a b i)) by lia] end.
Lemma slack_equal z i : (i < ne)%nat -> slack_sum z i = 0.
Proof. intros L. unfold slack_sum. pose proof (ss_rows _ _ SH). pick. ring. Qed.
Lemma slack_range z k : (k < nr)%nat -> slack_sum z (ne + k) = z (nv + k)%nat.
Proof. intros L. unfold slack_sum. pose proof (ss_rows _ _ SH). pick. replace (ne + k - ne)%nat with k by lia. ring. Qed.
Lemma slack_less z k : (k < nl)%nat -> slack_sum z (ne + nr + k) = z (nv + nr + k)%nat.
Proof. intros L. unfold slack_sum. pose proof (ss_rows _ _ SH). pick. replace (ne + nr + k - (ne + nr))%nat with k by lia. ring. Qed.
Lemma slack_greater z k : (k < ng)%nat -> slack_sum z (ne + nr + nl + k) = - z (nv + nr + nl + k)%nat.
Proof. intros L. unfold slack_sum. pose proof (ss_rows _ _ SH). pick. replace (ne + nr + nl + k - (ne + nr + nl))%nat with k by lia. ring. Qed.
Lemma slack_upper z k : (k < nb)%nat -> slack_sum z (ne + nr + nl + ng + k) = z (B k) + z (nv + nr + nl + ng + k)%nat.
Proof.
  intros L. unfold slack_sum. rewrite (ss_rows _ _ SH). pick. replace (ne + nr + nl + ng + k - (ne + nr + nl + ng))%nat with k by lia. ring.
Qed.
Lemma slack_slack z k : (k < nr)%nat -> slack_sum z (ne + nr + nl + ng + nb + k) = z (nv + k)%nat + z (nv + nr + nl + ng + nb + k)%nat.
Proof.
  intros L. unfold slack_sum. rewrite (ss_rows _ _ SH). pick.
  replace (ne + nr + nl + ng + nb + k - (ne + nr + nl + ng + nb))%nat with k by lia. ring.
Qed.
Lemma row_value_high z i : (g_rows g <= i)%nat -> row_value g z i = 0.
Proof. intros L. apply sum_zero. intros j Lj. rewrite coefficient_high by assumption. ring. Qed.

(** the right-hand sides *)
Lemma rhs_length : length (p_rhs (md_provider d)) = p_rows (md_provider d).
Proof.
  rewrite r_total. cbn. unfold md_rhs. rewrite !app_length, map_length, (dv_ranges _ _ _ D), (dv_b _ _ _ D), (gok_b _ P), (ss_rows _ _ SH). lia.
Qed.
Lemma rhs_constraint i : (i < g_rows g)%nat -> nthq (p_rhs (md_provider d)) i = nthq (g_b g) i.
Proof. intros L. cbn. unfold md_rhs, nthq. rewrite app_nth1; [now rewrite (dv_b _ _ _ D)|]. now rewrite (dv_b _ _ _ D), (gok_b _ P). Qed.
Lemma rhs_upper k : (k < nb)%nat -> nthq (p_rhs (md_provider d)) (ne + nr + nl + ng + k) = upper_of (g_vars g) (B k).
Proof.
  intros L. cbn. unfold md_rhs, nthq. rewrite app_nth2; rewrite (dv_b _ _ _ D), (gok_b _ P), (ss_rows _ _ SH); [|lia].
  replace (ne + nr + nl + ng + k - (ne + nr + nl + ng))%nat with k by lia. rewrite app_nth1 by now rewrite map_length.
  rewrite (nth_indep _ 0 (upper_of (md_vars d) 0%nat)) by now rewrite map_length. rewrite map_nth. unfold bidx. now rewrite (dv_vars _ _ _ D).
Qed.
Lemma rhs_slack k : (k < nr)%nat -> nthq (p_rhs (md_provider d)) (ne + nr + nl + ng + nb + k) = nthq (md_ranges d) k.
Proof.
  intros L. cbn. unfold md_rhs, nthq. rewrite app_nth2; rewrite (dv_b _ _ _ D), (gok_b _ P), (ss_rows _ _ SH); [|lia].
  rewrite app_nth2; rewrite map_length; [|lia]. f_equal. lia.
Qed.

(** feasibility, group by group *)
Lemma row_cases (Q : nat -> Prop) :
  (forall i, (i < ne)%nat -> Q i) -> (forall k, (k < nr)%nat -> Q (ne + k)%nat) -> (forall k, (k < nl)%nat -> Q (ne + nr + k)%nat) ->
  (forall k, (k < ng)%nat -> Q (ne + nr + nl + k)%nat) -> (forall k, (k < nb)%nat -> Q (ne + nr + nl + ng + k)%nat) ->
  (forall k, (k < nr)%nat -> Q (ne + nr + nl + ng + nb + k)%nat) -> forall i, (i < p_rows (md_provider d))%nat -> Q i.
Proof.
  intros H1 H2 H3 H4 H5 H6 i L. rewrite r_total in L.
  destruct (Nat.lt_ge_cases i ne) as [C1|C1]; [now apply H1|].
  destruct (Nat.lt_ge_cases i (ne + nr)) as [C2|C2]; [replace i with (ne + (i - ne))%nat by lia; apply H2; lia|].
  destruct (Nat.lt_ge_cases i (ne + nr + nl)) as [C3|C3]; [replace i with (ne + nr + (i - (ne + nr)))%nat by lia; apply H3; lia|].
  destruct (Nat.lt_ge_cases i (ne + nr + nl + ng)) as [C4|C4]; [replace i with (ne + nr + nl + (i - (ne + nr + nl)))%nat by lia; apply H4; lia|].
  destruct (Nat.lt_ge_cases i (ne + nr + nl + ng + nb)) as [C5|C5]; [replace i with (ne + nr + nl + ng + (i - (ne + nr + nl + ng)))%nat by lia; apply H5; lia|].
  replace i with (ne + nr + nl + ng + nb + (i - (ne + nr + nl + ng + nb)))%nat by lia. apply H6. lia.
Qed.
Lemma col_cases (Q : nat -> Prop) :
  (forall j, (j < nv)%nat -> Q j) -> (forall k, (k < nr)%nat -> Q (nv + k)%nat) -> (forall k, (k < nl)%nat -> Q (nv + nr + k)%nat) ->
  (forall k, (k < ng)%nat -> Q (nv + nr + nl + k)%nat) -> (forall k, (k < nb)%nat -> Q (nv + nr + nl + ng + k)%nat) ->
  (forall k, (k < nr)%nat -> Q (nv + nr + nl + ng + nb + k)%nat) -> forall j, (j < p_cols (md_provider d))%nat -> Q j.
Proof.
  intros H1 H2 H3 H4 H5 H6 i L. change (p_cols (md_provider d)) with (md_nr_columns d) in L. rewrite c_total in L.
  destruct (Nat.lt_ge_cases i nv) as [C1|C1]; [now apply H1|].
  destruct (Nat.lt_ge_cases i (nv + nr)) as [C2|C2]; [replace i with (nv + (i - nv))%nat by lia; apply H2; lia|].
  destruct (Nat.lt_ge_cases i (nv + nr + nl)) as [C3|C3]; [replace i with (nv + nr + (i - (nv + nr)))%nat by lia; apply H3; lia|].
  destruct (Nat.lt_ge_cases i (nv + nr + nl + ng)) as [C4|C4]; [replace i with (nv + nr + nl + (i - (nv + nr + nl)))%nat by lia; apply H4; lia|].
  destruct (Nat.lt_ge_cases i (nv + nr + nl + ng + nb)) as [C5|C5]; [replace i with (nv + nr + nl + ng + (i - (nv + nr + nl + ng)))%nat by lia; apply H5; lia|].
  replace i with (nv + nr + nl + ng + nb + (i - (nv + nr + nl + ng + nb)))%nat by lia. apply H6. lia.
Qed.
Ltac rows := rewrite (ss_rows _ _ SH); lia.
Lemma feasible_rows z : (forall i, (i < p_rows (md_provider d))%nat ->
    sum (p_cols (md_provider d)) (fun j => den (p_col (md_provider d) j) i * z j) = nthq (p_rhs (md_provider d)) i) <->
  (forall i, (i < ne)%nat -> row_value g z i = nthq (g_b g) i) /\
  (forall k, (k < nr)%nat -> row_value g z (ne + k) + z (nv + k)%nat = nthq (g_b g) (ne + k)) /\
  (forall k, (k < nl)%nat -> row_value g z (ne + nr + k) + z (nv + nr + k)%nat = nthq (g_b g) (ne + nr + k)) /\
  (forall k, (k < ng)%nat -> row_value g z (ne + nr + nl + k) - z (nv + nr + nl + k)%nat = nthq (g_b g) (ne + nr + nl + k)) /\
  (forall k, (k < nb)%nat -> z (B k) + z (nv + nr + nl + ng + k)%nat = upper_of (g_vars g) (B k)) /\
  (forall k, (k < nr)%nat -> z (nv + k)%nat + z (nv + nr + nl + ng + nb + k)%nat = nthq (md_ranges d) k).
Proof.
  split.
  - intros H. assert (H' : forall i, (i < p_rows (md_provider d))%nat -> row_value g z i + slack_sum z i = nthq (p_rhs (md_provider d)) i)
      by (intros i L; rewrite <- row_sum; now apply H). rewrite r_total in H'. clear H.
    split; [|split; [|split; [|split; [|split]]]].
    + intros i L. specialize (H' i ltac:(lia)). rewrite slack_equal, rhs_constraint in H' by (assumption || rows). rewrite <- H'. ring.
    + intros i L. specialize (H' (ne + i)%nat ltac:(lia)). rewrite slack_range, rhs_constraint in H' by (assumption || rows). exact H'.
    + intros i L. specialize (H' (ne + nr + i)%nat ltac:(lia)). rewrite slack_less, rhs_constraint in H' by (assumption || rows). exact H'.
    + intros i L. specialize (H' (ne + nr + nl + i)%nat ltac:(lia)). rewrite slack_greater, rhs_constraint in H' by (assumption || rows). rewrite <- H'. ring.
    + intros i L. specialize (H' (ne + nr + nl + ng + i)%nat ltac:(lia)). rewrite slack_upper, rhs_upper, row_value_high in H' by (assumption || rows).
      rewrite <- H'. ring.
    + intros i L. specialize (H' (ne + nr + nl + ng + nb + i)%nat ltac:(lia)). rewrite slack_slack, rhs_slack, row_value_high in H' by (assumption || rows).
      rewrite <- H'. ring.
  - intros (H1 & H2 & H3 & H4 & H5 & H6). apply (row_cases (fun i => sum _ _ = nthq _ i)).
    + intros i L. rewrite row_sum, slack_equal, rhs_constraint by (assumption || rows). rewrite <- H1 by assumption. ring.
    + intros i L. rewrite row_sum, slack_range, rhs_constraint by (assumption || rows). now apply H2.
    + intros i L. rewrite row_sum, slack_less, rhs_constraint by (assumption || rows). now apply H3.
    + intros i L. rewrite row_sum, slack_greater, rhs_constraint by (assumption || rows). rewrite <- H4 by assumption. ring.
    + intros i L. rewrite row_sum, slack_upper, rhs_upper, row_value_high by (assumption || rows). rewrite <- H5 by assumption. ring.
    + intros i L. rewrite row_sum, slack_slack, rhs_slack, row_value_high by (assumption || rows). rewrite <- H6 by assumption. ring.
Qed.
Lemma general_rows x : (forall i, (i < g_rows g)%nat -> rel_holds (row_type g i) (nthq (g_b g) i) (row_value g x i)) <->
  (forall i, (i < ne)%nat -> row_value g x i = nthq (g_b g) i) /\
  (forall k, (k < nr)%nat -> nthq (g_b g) (ne + k) - nthq (md_ranges d) k <= row_value g x (ne + k) /\ row_value g x (ne + k) <= nthq (g_b g) (ne + k)) /\
  (forall k, (k < nl)%nat -> row_value g x (ne + nr + k) <= nthq (g_b g) (ne + nr + k)) /\
  (forall k, (k < ng)%nat -> nthq (g_b g) (ne + nr + nl + k) <= row_value g x (ne + nr + nl + k)).
Proof.
  pose proof (ss_rows _ _ SH) as R. split.
  - intros H. split; [|split; [|split]].
    + intros i L. specialize (H i ltac:(lia)). now rewrite (ss_equal _ _ SH i L) in H.
    + intros k L. specialize (H (ne + k)%nat ltac:(lia)). now rewrite (dv_range _ _ _ D k L) in H.
    + intros k L. specialize (H (ne + nr + k)%nat ltac:(lia)). now rewrite (ss_less _ _ SH k L) in H.
    + intros k L. specialize (H (ne + nr + nl + k)%nat ltac:(lia)). now rewrite (ss_greater _ _ SH k L) in H.
  - intros (H1 & H2 & H3 & H4) i L.
    destruct (Nat.lt_ge_cases i ne) as [C1|C1]; [rewrite (ss_equal _ _ SH) by assumption; now apply H1|].
    destruct (Nat.lt_ge_cases i (ne + nr)) as [C2|C2].
    { replace i with (ne + (i - ne))%nat by lia. rewrite (dv_range _ _ _ D) by lia. apply H2. lia. }
    destruct (Nat.lt_ge_cases i (ne + nr + nl)) as [C3|C3].
    { replace i with (ne + nr + (i - (ne + nr)))%nat by lia. rewrite (ss_less _ _ SH) by lia. apply H3. lia. }
    replace i with (ne + nr + nl + (i - (ne + nr + nl)))%nat by lia. rewrite (ss_greater _ _ SH) by lia. apply H4. lia.
Qed.

Lemma feasible_general z : feasible (md_provider d) z -> gfeasible g z.
Proof.
  intros [F N]. apply feasible_rows in F. destruct F as (H1 & H2 & H3 & H4 & H5 & H6).
  change (p_cols (md_provider d)) with (md_nr_columns d) in N. rewrite c_total in N. split.
  - apply general_rows. split; [assumption|]. split; [|split].
    + intros k L. specialize (H2 k L). specialize (H6 k L). pose proof (N (nv + k)%nat ltac:(lia)).
      pose proof (N (nv + nr + nl + ng + nb + k)%nat ltac:(lia)). split; qlra.
    + intros k L. specialize (H3 k L). pose proof (N (nv + nr + k)%nat ltac:(lia)). qlra.
    + intros k L. specialize (H4 k L). pose proof (N (nv + nr + nl + k)%nat ltac:(lia)). qlra.
  - intros j Lj. split.
    + intros l E. rewrite (ss_lower _ _ SH j Lj) in E. injection E as <-. apply N. lia.
    + intros u E. pose proof (bound_of j Lj) as H. destruct (nth j (md_to_bound d) None) as [k|]; [|congruence].
      destruct H as [Lk Ek]. specialize (H5 k Lk). destruct (bound_lt k Lk) as [_ Hu]. cbv beta in Ek, H5, Hu. rewrite Ek in H5, Hu.
      rewrite E in Hu. injection Hu as Hu. rewrite <- Hu in H5. pose proof (N (nv + nr + nl + ng + k)%nat ltac:(lia)). qlra.
Qed.

(** the slack values that belong to a point *)
Definition with_slacks (x : vec) : vec := fun j =>
  match classify d j with
  | (Normal, j) => x j
  | (RangeSlack, k) => nthq (g_b g) (ne + k) - row_value g x (ne + k)
  | (UpperSlack, k) => nthq (g_b g) (ne + nr + k) - row_value g x (ne + nr + k)
  | (LowerSlack, k) => row_value g x (ne + nr + nl + k) - nthq (g_b g) (ne + nr + nl + k)
  | (BoundSlack, k) => upper_of (g_vars g) (B k) - x (B k)
  | (SlackBoundSlack, k) => nthq (md_ranges d) k - (nthq (g_b g) (ne + k) - row_value g x (ne + k))
  end.
Lemma with_slacks_normal x j : (j < nv)%nat -> with_slacks x j = x j.
Proof. intros L. unfold with_slacks. now rewrite class_normal. Qed.
Lemma row_value_ext x y i : (forall j, (j < nv)%nat -> x j = y j) -> row_value g x i = row_value g y i.
Proof. intros H. apply sum_ext. intros j Lj. now rewrite H. Qed.
Lemma general_feasible x : gfeasible g x -> feasible (md_provider d) (with_slacks x).
Proof.
  intros [F N]. apply general_rows in F. destruct F as (H1 & H2 & H3 & H4).
  assert (RV : forall i, row_value g (with_slacks x) i = row_value g x i) by (intros i; apply row_value_ext; apply with_slacks_normal).
  split.
  - apply feasible_rows. split; [|split; [|split; [|split; [|split]]]].
    + intros i L. rewrite RV. now apply H1.
    + intros k L. rewrite RV. unfold with_slacks. rewrite class_range by assumption. ring.
    + intros k L. rewrite RV. unfold with_slacks. rewrite class_upper by assumption. ring.
    + intros k L. rewrite RV. unfold with_slacks. rewrite class_lower by assumption. ring.
    + intros k L. rewrite with_slacks_normal by (now apply bound_lt). unfold with_slacks. rewrite class_bound by assumption. ring.
    + intros k L. unfold with_slacks. rewrite class_range, class_slack by assumption. ring.
  - apply (col_cases (fun j => 0 <= with_slacks x j)).
    + intros j L. rewrite with_slacks_normal by assumption. apply (N j L). now apply (ss_lower _ _ SH).
    + intros k L. unfold with_slacks. rewrite class_range by assumption. specialize (H2 k L). destruct H2. qlra.
    + intros k L. unfold with_slacks. rewrite class_upper by assumption. specialize (H3 k L). qlra.
    + intros k L. unfold with_slacks. rewrite class_lower by assumption. specialize (H4 k L). qlra.
    + intros k L. unfold with_slacks. rewrite class_bound by assumption. destruct (bound_lt k L) as [Lb Hb].
      pose proof (proj2 (N _ Lb) _ Hb). cbv beta in *. qlra.
    + intros k L. unfold with_slacks. rewrite class_slack by assumption. specialize (H2 k L). destruct H2. qlra.
Qed.
Lemma with_slacks_unique z : feasible (md_provider d) z -> forall j, (j < p_cols (md_provider d))%nat -> z j = with_slacks z j.
Proof.
  intros [F N]. apply feasible_rows in F. destruct F as (H1 & H2 & H3 & H4 & H5 & H6).
  apply (col_cases (fun j => z j = with_slacks z j)).
  - intros j L. now rewrite with_slacks_normal.
  - intros k L. unfold with_slacks. rewrite class_range by assumption. rewrite <- H2 by assumption. ring.
  - intros k L. unfold with_slacks. rewrite class_upper by assumption. rewrite <- H3 by assumption. ring.
  - intros k L. unfold with_slacks. rewrite class_lower by assumption. rewrite <- H4 by assumption. ring.
  - intros k L. unfold with_slacks. rewrite class_bound by assumption. rewrite <- H5 by assumption. ring.
  - intros k L. unfold with_slacks. rewrite class_slack by assumption. rewrite <- H6, <- H2 by assumption. ring.
Qed.

Lemma md_objective z : g_fixed g + objective (md_provider d) z = gcost g z.
Proof.
  unfold gcost. f_equal. unfold objective. change (p_cols (md_provider d)) with (md_nr_columns d). rewrite c_total, !sum_add.
  assert (Z : forall base cnt, (forall k, (k < cnt)%nat -> fst (classify d (base + k)) <> Normal) ->
     sum cnt (fun k => p_cost (md_provider d) (base + k)%nat * z (base + k)%nat) = 0).
  { intros base cnt H. apply sum_zero. intros k Lk. cbn. unfold md_cost. specialize (H k Lk).
    destruct (classify d (base + k)) as [[] k']; cbn in H; try ring; congruence. }
  rewrite (Z nv nr), (Z (nv + nr)%nat nl), (Z (nv + nr + nl)%nat ng), (Z (nv + nr + nl + ng)%nat nb), (Z (nv + nr + nl + ng + nb)%nat nr).
  - rewrite (sum_ext nv _ (fun j => v_cost (var g j) * z j)); [ring|]. intros j Lj. cbn. unfold md_cost. rewrite class_normal by assumption.
    rewrite (dv_vars _ _ _ D). now rewrite (nth_error_nth' _ no_variable) by exact Lj.
  - intros k L. rewrite class_slack by assumption. discriminate.
  - intros k L. rewrite class_bound by assumption. discriminate.
  - intros k L. rewrite class_lower by assumption. discriminate.
  - intros k L. rewrite class_upper by assumption. discriminate.
  - intros k L. rewrite class_range by assumption. discriminate.
Qed.

(** ** The solver's requirements *)
Lemma fwf_snoc lo m l i v m' : fwf lo m l -> (m <= i < m')%nat -> (lo <= m)%nat -> v <> 0 -> fwf lo m' (l ++ [(i, v)]).
Proof.
  revert lo. induction l as [|[j w] l IH]; intros lo F L Lo N; cbn [app fwf] in *.
  - repeat split; try assumption; lia.
  - destruct F as (F1 & F2 & F3). repeat split; try assumption; try lia. apply IH; try assumption. lia.
Qed.
Lemma fwf_wider lo m m' l : (m <= m')%nat -> fwf lo m l -> fwf lo m' l.
Proof.
  revert lo. induction l as [|[j w] l IH]; intros lo L F; cbn [fwf] in *; [exact I|]. destruct F as (F1 & F2 & F3). repeat split; try assumption; try lia.
  now apply IH.
Qed.
Lemma one_nz : (1 : Qc) <> 0. Proof. intros H. discriminate (f_equal this H). Qed.
Lemma mone_nz : - (1 : Qc) <> 0. Proof. intros H. discriminate (f_equal this H). Qed.
Lemma md_wfs j : (j < p_cols (md_provider d))%nat -> wfs (p_rows (md_provider d)) (p_col (md_provider d) j).
Proof.
  revert j. pose proof one_nz. pose proof mone_nz. rewrite r_total. pose proof (ss_rows _ _ SH) as R.
  apply (col_cases (fun j => wfs _ (p_col (md_provider d) j))).
  - intros j L. rewrite col_normal by assumption. pose proof (gok_sorted _ P j L) as W. unfold bound_entry.
    pose proof (bound_of j L) as HB. destruct (nth j (md_to_bound d) None) as [k|].
    + apply (fwf_snoc 0 (g_rows g)); try assumption; lia.
    + rewrite app_nil_r. apply (fwf_wider 0 (g_rows g)); [lia|assumption].
  - intros k L. rewrite col_range by assumption. cbn. repeat split; try assumption; lia.
  - intros k L. rewrite col_upper by assumption. cbn. repeat split; try assumption; lia.
  - intros k L. rewrite col_lower by assumption. cbn. repeat split; try assumption; lia.
  - intros k L. rewrite col_bound by assumption. cbn. repeat split; try assumption; lia.
  - intros k L. rewrite col_slack by assumption. cbn. repeat split; try assumption; lia.
Qed.
Lemma md_nonneg i : (i < p_rows (md_provider d))%nat -> 0 <= nthq (p_rhs (md_provider d)) i.
Proof.
  revert i. apply (row_cases (fun i => 0 <= nthq _ i)); intros k L.
  - rewrite rhs_constraint by rows. apply (ss_b _ _ SH). rows.
  - rewrite rhs_constraint by rows. apply (ss_b _ _ SH). rows.
  - rewrite rhs_constraint by rows. apply (ss_b _ _ SH). rows.
  - rewrite rhs_constraint by rows. apply (ss_b _ _ SH). rows.
  - rewrite rhs_upper by assumption. destruct (bound_lt k L) as [Lb Hb].
    apply (gok_domain _ P (B k) 0 _ Lb); [now apply (ss_lower _ _ SH)|assumption].
  - rewrite rhs_slack by assumption. apply (gok_ranges _ P (ne + k)%nat); [rows|]. now apply (dv_range _ _ _ D).
Qed.
Lemma md_initial : md_pivots d =
  map (fun k => (ne + nr + k, nv + nr + k)%nat) (seq 0 nl) ++
  map (fun k => (ne + nr + nl + ng + k, nv + nr + nl + ng + k)%nat) (seq 0 nb) ++
  map (fun k => (ne + nr + nl + ng + nb + k, nv + nr + nl + ng + nb + k)%nat) (seq 0 nr).
Proof. unfold md_pivots, range. ends. rewrite (dv_counts _ _ _ D), !Nat.sub_0_r. reflexivity. Qed.
Lemma increasing_block base cnt lo rest : (lo <= base)%nat -> increasing_from (base + cnt) rest ->
  increasing_from lo (map (fun k => (base + k)%nat) (seq 0 cnt) ++ rest).
Proof.
  intros Lo I. assert (G : forall cnt s lo, (lo <= base + s)%nat -> increasing_from (base + s + cnt) rest ->
     increasing_from lo (map (fun k => (base + k)%nat) (seq s cnt) ++ rest)).
  { clear. induction cnt as [|cnt IH]; intros s lo L I; cbn [seq map app].
    - rewrite Nat.add_0_r in I. destruct rest as [|x rest]; [exact I|]. destruct I as [I1 I2]. split; [lia|assumption].
    - split; [assumption|]. apply IH; [lia|]. replace (base + S s + cnt)%nat with (base + s + S cnt)%nat by lia. assumption. }
  apply G; [lia|]. now rewrite Nat.add_0_r.
Qed.
Lemma increasing_lower lo lo' l : (lo' <= lo)%nat -> increasing_from lo l -> increasing_from lo' l.
Proof. destruct l; cbn; intuition lia. Qed.
Lemma md_pivots_sorted : increasing_from 0 (map fst (md_pivots d)) /\ increasing_from 0 (map snd (md_pivots d)).
Proof.
  rewrite md_initial, !map_app, !map_map. cbn [fst snd]. split.
  - apply increasing_block; [lia|]. apply (increasing_lower (ne + nr + nl + ng)); [lia|]. apply increasing_block; [lia|].
    rewrite <- (app_nil_r (map _ (seq 0 nr))). apply increasing_block; [lia|exact I].
  - apply increasing_block; [lia|]. apply (increasing_lower (nv + nr + nl + ng)); [lia|]. apply increasing_block; [lia|].
    rewrite <- (app_nil_r (map _ (seq 0 nr))). apply increasing_block; [lia|exact I].
Qed.
Lemma md_pivots_unit r j : In (r, j) (md_pivots d) -> (r < p_rows (md_provider d))%nat /\ (j < p_cols (md_provider d))%nat /\
  p_col (md_provider d) j = sbasis r /\ p_cost (md_provider d) j = 0.
Proof.
  rewrite md_initial, !in_app_iff, !in_map_iff, r_total. change (p_cols (md_provider d)) with (md_nr_columns d). rewrite c_total.
  intros [(k & E & Hk)|[(k & E & Hk)|(k & E & Hk)]]; apply in_seq in Hk; injection E as <- <-; (split; [lia|]; split; [lia|]).
  - rewrite col_upper by lia. split; [reflexivity|]. cbn. unfold md_cost. now rewrite class_upper by lia.
  - rewrite col_bound by lia. split; [reflexivity|]. cbn. unfold md_cost. now rewrite class_bound by lia.
  - rewrite col_slack by lia. split; [reflexivity|]. cbn. unfold md_cost. now rewrite class_slack by lia.
Qed.

(** only equality constraints can be redundant *)
Lemma den_single i v k : den [(i, v)] k = if Nat.eqb k i then v else 0.
Proof. cbn [den]. destruct (Nat.eqb k i); ring. Qed.
Lemma redundant_equal rm r : redundant (md_provider d) rm -> In r rm -> (r < ne)%nat.
Proof.
  intros [ND H] Hr. destruct (H r Hr) as (Lr & y & Y1 & _ & Y2 & _). clear H.
  assert (U : forall i j v, (i < p_rows (md_provider d))%nat -> (j < p_cols (md_provider d))%nat -> p_col (md_provider d) j = [(i, v)] -> v <> 0 -> y i = 0).
  { intros i j v Li Lj E N. specialize (Y2 j Lj). rewrite E in Y2. rewrite (sum_single _ i _ Li) in Y2.
    - rewrite den_single, Nat.eqb_refl in Y2. apply Qcmult_integral in Y2. tauto.
    - intros k Lk Nk. rewrite den_single, (proj2 (Nat.eqb_neq k i)) by assumption. ring. }
  assert (LC := c_total). change (md_nr_columns d) with (p_cols (md_provider d)) in LC.
  assert (LR := r_total).
  pose proof one_nz as N1. pose proof mone_nz as N2.
  destruct (Nat.lt_ge_cases r ne) as [C|C]; [assumption|]. exfalso. apply N1. rewrite <- Y1.
  revert r Lr Hr Y1 C. apply (row_cases (fun r => In r rm -> y r = 1 -> (ne <= r)%nat -> y r = 0)).
  - intros; lia.
  - intros k L _ _ _.
    pose proof (U (ne + nr + nl + ng + nb + k)%nat (nv + nr + nl + ng + nb + k)%nat 1 ltac:(lia) ltac:(lia) (col_slack k L) N1) as Z.
    specialize (Y2 (nv + k)%nat ltac:(lia)). rewrite col_range in Y2 by assumption.
    rewrite (sum_ext _ _ (fun i => y i * delta i (ne + k) + y i * delta i (ne + nr + nl + ng + nb + k))) in Y2.
    2:{ intros i Li. unfold delta. cbn [den]. destruct (Nat.eqb i (ne + k)), (Nat.eqb i (ne + nr + nl + ng + nb + k)); ring. }
    rewrite sum_plus in Y2. rewrite (sum_single _ (ne + k)%nat) in Y2; [|lia|].
    2:{ intros i Li Ni. unfold delta. rewrite (proj2 (Nat.eqb_neq _ _) Ni). ring. }
    rewrite (sum_single _ (ne + nr + nl + ng + nb + k)%nat) in Y2; [|lia|].
    2:{ intros i Li Ni. unfold delta. rewrite (proj2 (Nat.eqb_neq _ _) Ni). ring. }
    unfold delta in Y2. rewrite !Nat.eqb_refl, Z in Y2. rewrite <- Y2. ring.
  - intros k L _ _ _. apply (U _ (nv + nr + k)%nat 1); [lia|lia|now apply col_upper|assumption].
  - intros k L _ _ _. apply (U _ (nv + nr + nl + k)%nat (- (1))); [lia|lia|now apply col_lower|assumption].
  - intros k L _ _ _. apply (U _ (nv + nr + nl + ng + k)%nat 1); [lia|lia|now apply col_bound|assumption].
  - intros k L _ _ _. apply (U _ (nv + nr + nl + ng + nb + k)%nat 1); [lia|lia|now apply col_slack|assumption].
Qed.
Lemma sremove_app a b rm : sremove (a ++ b) rm = sremove a rm ++ sremove b rm.
Proof. unfold sremove. now rewrite filter_app, map_app. Qed.
Lemma md_filter rm j : redundant (md_provider d) rm -> (j < p_cols (md_provider d))%nat ->
  p_filtered (md_provider d) rm j = sremove (p_col (md_provider d) j) rm.
Proof.
  intros R Lj. assert (EQ : forall r, In r rm -> (r < ne)%nat) by (intros r; now apply redundant_equal).
  assert (ONE : forall e, (ne <= fst e)%nat -> sremove [e] rm = [((fst e - length rm)%nat, snd e)]).
  { intros [i v] Li. cbn [fst snd] in *. rewrite sremove_cons. rewrite (proj2 (memb_false i rm)) by (intros Hi; apply EQ in Hi; lia).
    unfold pos. rewrite count_below_all; [reflexivity|]. intros r Hr. apply EQ in Hr. lia. }
  change (column_entries (into_filtered (md_column_at d j) rm) = sremove (column_entries (md_column_at d j)) rm).
  unfold md_column_at. destruct (classify d j) as [t k] eqn:E.
  destruct t; cbn [into_filtered column_entries fst snd].
  - destruct (bound_row_index d k) as [i|] eqn:Bi; cbn [option_map fst snd]; [|reflexivity].
    rewrite sremove_app, ONE; [reflexivity|]. cbn [fst]. unfold bound_row_index in Bi. destruct (classify d k) as [[] k'].
    + destruct (nth k' (md_to_bound d) None); [|discriminate]. injection Bi as <-. ends. lia.
    + injection Bi as <-. ends. lia.
    + discriminate.
    + discriminate.
    + discriminate.
    + discriminate.
  - pose proof (sremove_app [((eq_end d + k)%nat, (1:Qc))] [((bound_end d + k)%nat, (1:Qc))] rm) as SA. cbn [app] in SA.
    rewrite SA, !ONE; [reflexivity| |]; cbn [fst]; ends; lia.
  - rewrite ONE; [reflexivity|]. cbn [fst]. ends. lia.
  - rewrite ONE; [reflexivity|]. cbn [fst]. ends. lia.
  - rewrite ONE; [reflexivity|]. cbn [fst]. ends. lia.
  - rewrite ONE; [reflexivity|]. cbn [fst]. ends. lia.
Qed.
Lemma md_provider_ok : provider_ok (md_provider d).
Proof.
  split.
  - exact rhs_length.
  - exact md_nonneg.
  - exact md_wfs.
  - unfold init_ok. cbn [p_init md_provider]. split; [apply md_pivots_sorted|]. intros r j H. destruct (md_pivots_unit r j H) as (H1 & H2 & H3 & _). auto.
  - intros rm j _. apply md_filter.
Qed.

End Derived.

(** two points of the computational form with the same values of the variables are the same *)
Section Unique.
Variables (g : general) (c : counts) (d : matrix_data).
Hypothesis (P : general_ok g) (SH : standard_shape g c) (D : derived g c d).
Lemma with_slacks_ext x y : (forall j, (j < nr_vars g)%nat -> x j = y j) ->
  forall j, (j < p_cols (md_provider d))%nat -> with_slacks g c d x j = with_slacks g c d y j.
Proof.
  intros H. assert (RV : forall i, row_value g x i = row_value g y i) by (intros i; now apply row_value_ext).
  apply (col_cases g c d D (fun j => with_slacks g c d x j = with_slacks g c d y j)); intros k L; unfold with_slacks.
  - rewrite (class_normal g c d D) by assumption. now apply H.
  - rewrite (class_range g c d D) by assumption. now rewrite RV.
  - rewrite (class_upper g c d D) by assumption. now rewrite RV.
  - rewrite (class_lower g c d D) by assumption. now rewrite RV.
  - rewrite (class_bound g c d D) by assumption. now rewrite (H _ (proj1 (bound_lt g c d D k L))).
  - rewrite (class_slack g c d D) by assumption. now rewrite RV.
Qed.
Lemma same_slacks z z' : feasible (md_provider d) z -> feasible (md_provider d) z' ->
  (forall j, (j < nr_vars g)%nat -> z j = z' j) -> forall j, (j < p_cols (md_provider d))%nat -> z j = z' j.
Proof.
  intros F F' H j L. rewrite (with_slacks_unique g c d P SH D z F j L), (with_slacks_unique g c d P SH D z' F' j L).
  now apply with_slacks_ext.
Qed.
End Unique.

(** ** The initial pivots of any [matrix_data] *)
Section Pivots.
Variable d : matrix_data.
Ltac ends := unfold md_nr_constraints, md_nr_variable_bounds, md_nr_columns, slack_bound_cend, bound_cend, lower_cend, upper_cend, range_cend,
  bound_end, lower_end, upper_end, range_end in *.
Ltac bool_lt := repeat match goal with |- context [Nat.ltb ?a ?b] => destruct (Nat.ltb_spec a b); try lia end.
Lemma any_pivots_unit r j : In (r, j) (md_pivots d) -> (r < p_rows (md_provider d))%nat /\ (j < p_cols (md_provider d))%nat /\
  p_col (md_provider d) j = sbasis r /\ p_cost (md_provider d) j = 0.
Proof.
  unfold md_pivots. rewrite !in_app_iff, !in_map_iff. cbn [md_provider p_rows p_cols p_col p_cost].
  assert (CL : forall t, classify d j = t -> fst t <> Normal -> md_cost d j = 0).
  { intros [t k] E N. unfold md_cost. rewrite E. destruct t; try reflexivity. now cbn in N. }
  assert (E1 : forall k, (k < n_less (md_counts d))%nat -> classify d (range_cend d + k) = (UpperSlack, k)).
  { intros k L. unfold classify. ends. bool_lt. f_equal. lia. }
  assert (E2 : forall k, (k < length (md_bounds d))%nat -> classify d (lower_cend d + k) = (BoundSlack, k)).
  { intros k L. unfold classify. ends. bool_lt. f_equal. lia. }
  assert (E3 : forall k, (k < n_range (md_counts d))%nat -> classify d (bound_cend d + k) = (SlackBoundSlack, k)).
  { intros k L. unfold classify. ends. bool_lt. f_equal. lia. }
  intros [(k & E & Hk)|[(k & E & Hk)|(k & E & Hk)]]; apply In_range in Hk; injection E as <- <-.
  - specialize (E1 k ltac:(lia)). split; [ends; lia|]. split; [ends; lia|]. split; [unfold md_column_at; now rewrite E1|].
    apply (CL _ E1). discriminate.
  - specialize (E2 k ltac:(lia)). split; [ends; lia|]. split; [ends; lia|]. split; [unfold md_column_at; now rewrite E2|].
    apply (CL _ E2). discriminate.
  - specialize (E3 k ltac:(lia)). split; [ends; lia|]. split; [ends; lia|]. split; [unfold md_column_at; now rewrite E3|].
    apply (CL _ E3). discriminate.
Qed.
Lemma any_pivots_sorted : increasing_from 0 (map fst (md_pivots d)) /\ increasing_from 0 (map snd (md_pivots d)).
Proof.
  unfold md_pivots, range. rewrite !map_app, !map_map, !Nat.sub_0_r. cbn [fst snd]. split.
  - apply increasing_block; [lia|]. apply (increasing_lower (lower_end d)); [ends; lia|]. apply increasing_block; [lia|].
    rewrite <- (app_nil_r (map _ (seq 0 (n_range _)))). apply increasing_block; [ends; lia|exact I].
  - apply increasing_block; [lia|]. apply (increasing_lower (lower_cend d)); [ends; lia|]. apply increasing_block; [lia|].
    rewrite <- (app_nil_r (map _ (seq 0 (n_range _)))). apply increasing_block; [ends; lia|exact I].
Qed.
End Pivots.
