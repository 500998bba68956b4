(** * How many rows standardization and the matrix data make of a program (proofs about GeneralForm.v and MatrixData.v) *)
From Verif Require Import SpecSizes SparseP KindP KeptP ArtP PermP RangesP StandardP StandardQ StandardR MatrixDataP Pipeline SolverP PipelineP.
Local Open Scope Qc_scope.

(** ** Splitting the free variables *)
(** the program at the start of the loop *)
Definition free_columns (g : general) : list nat := filter (fun j => is_free (var g j)) (range 0 (length (g_cols g))).
Definition negated_columns (g : general) : list svec := map (fun j => snegate (nth j (g_cols g) [])) (free_columns g).
Definition with_negated (g : general) : general :=
  mk_general (g_objective g) (g_fixed g) (g_rows g) (g_cols g ++ negated_columns g) (g_types g) (g_b g) (g_vars g) (g_orig g) (g_from g).
Lemma free_columns_In g j : general_ok g -> In j (free_columns g) <-> (j < nr_vars g)%nat /\ freev (var g j).
Proof. intros P. unfold free_columns. rewrite filter_In, In_range, is_free_iff, (gok_cols _ P). intuition lia. Qed.
Lemma free_columns_found g : general_ok g ->
  filterM (fun j => let* v := index (g_vars g) j in Ok (is_free v)) (range 0 (length (g_cols g))) = Ok (free_columns g).
Proof.
  intros P. apply filterM_ok. intros j Hj. apply In_range in Hj. rewrite (index_nth _ _ no_variable); [reflexivity|].
  rewrite (gok_cols _ P) in Hj. unfold nr_vars in Hj. lia.
Qed.
Lemma negated_columns_found g : general_ok g ->
  mapM (fun j => let* c := index (g_cols g) j in Ok (snegate c)) (free_columns g) = Ok (negated_columns g).
Proof.
  intros P. apply mapM_map. intros j Hj. apply (free_columns_In g j P) in Hj. rewrite (index_nth _ _ []); [reflexivity|]. rewrite (gok_cols _ P). tauto.
Qed.
Lemma split_free_fold g : general_ok g -> split_free g = foldM split_one (free_columns g) (with_negated g).
Proof. intros P. unfold split_free. rewrite (free_columns_found g P). cbn [bind]. rewrite (negated_columns_found g P). reflexivity. Qed.
Lemma with_negated_pre g : general_ok g -> gpre (free_columns g) (with_negated g).
Proof.
  intros P. assert (Hdup : forall j, In j (free_columns g) <-> (j < nr_vars g)%nat /\ freev (var g j)) by (intros; now apply free_columns_In).
  set (g1 := with_negated g).
  destruct P as [PC PF PT PB PS PR PD PA PSp PFr]. constructor; try assumption.
    - cbn [g_cols g1 with_negated]. unfold negated_columns. rewrite app_length, map_length. now rewrite PC.
    - intros j Lj. cbn [g_cols g1 with_negated] in *; unfold negated_columns in *. rewrite app_length, map_length in Lj.
      destruct (Nat.lt_ge_cases j (length (g_cols g))) as [L|L].
      + rewrite nth_app_l by assumption. apply PS. now rewrite <- PC.
      + rewrite app_nth2 by assumption. set (d := fun j => snegate (nth j (g_cols g) [])).
        rewrite (nth_indep _ [] (d 0%nat)) by (rewrite map_length; lia). rewrite map_nth. unfold d.
        apply fwf_snegate. apply PS. apply Hdup. apply nth_In. lia.
    - split; [|exact Hdup]. unfold free_columns. apply NoDup_filter. apply seq_NoDup.
    - intros j Hj. apply Hdup in Hj. destruct Hj as [Lj [A1 B1]]. exact (PFr j Lj A1 B1).
    - intros t Lt. cbn [g_cols g1 with_negated]; unfold negated_columns. change (nr_vars g1) with (nr_vars g). rewrite <- PC. rewrite app_nth2 by lia.
      replace (length (g_cols g) + t - length (g_cols g))%nat with t by lia. set (d := fun j => snegate (nth j (g_cols g) [])).
      rewrite (nth_indep _ [] (d 0%nat)) by (rewrite map_length; lia). rewrite map_nth. unfold d.
      rewrite nth_app_l; [reflexivity|]. rewrite PC. apply Hdup. apply nth_In. lia.
Qed.

(** ** The sizes of a program *)
Record same_sizes (g g' : general) : Prop := mk_same_sizes {
  sz_rows : inequality_rows g' = inequality_rows g;
  sz_entries : (entries g <= entries g')%nat
}.
Lemma same_sizes_refl g : same_sizes g g. Proof. now constructor. Qed.
Lemma same_sizes_trans a b c : same_sizes a b -> same_sizes b c -> same_sizes a c.
Proof. intros [] []. constructor; [congruence|lia]. Qed.
Lemma count_upd {A} (f : A -> bool) (l : list A) i x v : nth_error l i = Some v -> f x = f v ->
  length (filter f (upd l i x)) = length (filter f l).
Proof.
  revert i. induction l as [|y l IH]; intros [|i]; cbn [nth_error upd filter]; try discriminate.
  - intros [= ->] ->. destruct (f v); reflexivity.
  - intros H E. destruct (f y); cbn [length]; now rewrite (IH i H E).
Qed.
Lemma concat_upd {A} (l : list (list A)) i x v : nth_error l i = Some v -> length x = length v -> length (concat (upd l i x)) = length (concat l).
Proof.
  revert i. induction l as [|y l IH]; intros [|i]; cbn [nth_error upd concat]; try discriminate.
  - intros [= ->] E. rewrite !app_length. lia.
  - intros H E. rewrite !app_length. now rewrite (IH i H E).
Qed.
Lemma concat_lengths {A B} (l : list (list A)) : forall l' : list (list B), map (@length A) l = map (@length B) l' -> length (concat l) = length (concat l').
Proof. induction l as [|x l IH]; intros [|y l']; cbn; try discriminate; [reflexivity|]. intros [= E1 E2]. rewrite !app_length. now rewrite E1, (IH l' E2). Qed.
Lemma set_index_ok {A} (l : list A) i x l' : set_index l i x = Ok l' -> l' = upd l i x.
Proof. unfold set_index. destruct (Nat.ltb i (length l)); [|discriminate]. now intros [= <-]. Qed.
Lemma flip_sizes g j g' : flip_one g j = Ok g' -> same_sizes g g'.
Proof.
  unfold flip_one. destruct (index (g_vars g) j) as [v| |] eqn:EV; cbn [bind]; try discriminate. apply index_ok in EV.
  destruct (v_lower v) as [lo|] eqn:EL, (v_upper v) as [up|] eqn:EU; try (intros [= <-]; apply same_sizes_refl).
  destruct (set_index (g_vars g) j _) as [vars| |] eqn:E; cbn [bind]; try discriminate. apply set_index_ok in E.
  destruct (index (g_cols g) j) as [c| |] eqn:EC; cbn [bind]; try discriminate. apply index_ok in EC.
  destruct (set_index (g_cols g) j _) as [cols| |] eqn:E2; cbn [bind]; try discriminate. apply set_index_ok in E2.
  intros [= <-]. subst. constructor.
  - unfold inequality_rows. cbn [g_types g_vars]. f_equal. rewrite (count_upd _ _ _ _ _ EV); [reflexivity|]. unfold bounded_twice. cbn. now rewrite EL.
  - unfold entries. cbn [g_cols]. rewrite (concat_upd _ _ _ _ EC); [reflexivity|]. apply map_length.
Qed.
Lemma shift_sizes g j g' : shift_one g j = Ok g' -> same_sizes g g'.
Proof.
  unfold shift_one. destruct (index (g_vars g) j) as [v| |] eqn:EV; cbn [bind]; try discriminate. apply index_ok in EV.
  destruct (v_lower v) as [lo|] eqn:EL; try (intros [= <-]; apply same_sizes_refl).
  destruct (index (g_cols g) j); cbn [bind]; try discriminate. destruct (foldM _ _ _); cbn [bind]; try discriminate.
  destruct (set_index (g_vars g) j _) as [vars| |] eqn:E; cbn [bind]; try discriminate. apply set_index_ok in E.
  intros [= <-]. subst. constructor; [|reflexivity]. unfold inequality_rows. cbn [g_types g_vars]. f_equal.
  rewrite (count_upd _ _ _ _ _ EV); [reflexivity|]. unfold bounded_twice. cbn. rewrite EL. now destruct (v_upper v).
Qed.
Lemma transform_sizes l : forall g g', foldM transform_one l g = Ok g' -> same_sizes g g'.
Proof.
  induction l as [|j l IH]; intros g g'; cbn [foldM]; [intros [= <-]; apply same_sizes_refl|].
  unfold transform_one at 1. destruct (flip_one g j) as [g1| |] eqn:E1; cbn [bind]; try discriminate.
  destruct (shift_one g1 j) as [g2| |] eqn:E2; cbn [bind]; try discriminate. intros E.
  eapply same_sizes_trans; [exact (flip_sizes _ _ _ E1)|]. eapply same_sizes_trans; [exact (shift_sizes _ _ _ E2)|]. now apply IH.
Qed.
Lemma negate_sizes rows : forall types b st, foldM negate_row rows (types, b) = Ok st ->
  length (filter inequality (fst st)) = length (filter inequality types) /\ length (filter is_range (fst st)) = length (filter is_range types).
Proof.
  induction rows as [|i rows IH]; intros types b st; cbn [foldM]; [intros [= <-]; now split|].
  unfold negate_row at 1. destruct (index types i) as [t| |] eqn:ET; cbn [bind]; try discriminate. apply index_ok in ET.
  destruct (index b i); cbn [bind]; try discriminate.
  destruct t; cbv iota.
  3,4:destruct (set_index types i _) as [types'| |] eqn:E1; cbn [bind]; try discriminate; apply set_index_ok in E1;
      destruct (set_index b i _); cbn [bind]; try discriminate; intros E; destruct (IH _ _ _ E) as [-> ->]; subst types';
      rewrite !(count_upd _ _ _ _ _ ET) by reflexivity; now split.
  all:destruct (set_index b i _); cbn [bind]; try discriminate; apply IH.
Qed.
Lemma make_b_sizes g g' : make_b_non_negative g = Ok g' -> same_sizes g g'.
Proof.
  unfold make_b_non_negative. destruct (foldM negate_row _ _) as [st| |] eqn:E; cbn [bind]; try discriminate. intros [= <-].
  destruct (negate_sizes _ _ _ _ E) as [E1 E2]. constructor.
  - unfold inequality_rows. cbn [g_types g_vars]. now rewrite E1, E2.
  - unfold entries. cbn [g_cols]. apply Nat.eq_le_incl. apply concat_lengths. unfold change_row_signs. rewrite map_map. apply map_ext.
    intros c. now rewrite map_length.
Qed.
Lemma minimization_sizes g : same_sizes g (make_minimization g).
Proof.
  unfold make_minimization. destruct (g_objective g); [apply same_sizes_refl|]. constructor; [|reflexivity].
  unfold inequality_rows. cbn [g_types g_vars]. f_equal. induction (g_vars g) as [|v l IH]; [reflexivity|]. cbn [map filter].
  change (bounded_twice (negate_cost v)) with (bounded_twice v). destruct (bounded_twice v); cbn [length]; now rewrite IH.
Qed.
Lemma filter_perm_length {A} (f : A -> bool) l l' : Permutation.Permutation l l' -> length (filter f l) = length (filter f l').
Proof.
  induction 1; cbn [filter]; try congruence.
  - destruct (f x); cbn; congruence.
  - destruct (f x), (f y); reflexivity.
Qed.
Lemma reorder_sizes g gc : reorder g = Ok gc -> same_sizes g (fst gc).
Proof.
  unfold reorder. destruct (number_types _ _) as [ks c]. cbv zeta.
  destruct (foldM _ _ _); cbn [bind]; try discriminate. destruct (mapM ofopt _); cbn [bind]; try discriminate.
  destruct (mapM _ (g_cols g)) as [cols| |] eqn:EC; cbn [bind]; try discriminate. intros [= <-]. constructor.
  - unfold inequality_rows. cbn [g_types g_vars fst]. pose proof (sort_by_perm type_rank (g_types g)) as Pm.
    now rewrite (filter_perm_length inequality _ _ Pm), (filter_perm_length is_range _ _ Pm).
  - unfold entries. cbn [g_cols fst]. apply Nat.eq_le_incl. apply concat_lengths. clear - EC. revert cols EC.
    induction (g_cols g) as [|col l IH]; intros cols; cbn [mapM]; [intros [= <-]; reflexivity|].
    destruct (mapM _ col) as [col'| |] eqn:E1; cbn [bind]; try discriminate. destruct (mapM _ l) as [r| |] eqn:E2; cbn [bind]; try discriminate.
    intros [= <-]. cbn [map]. f_equal; [|now apply IH]. rewrite sort_by_length. symmetry. exact (proj1 (mapM_ok _ _ _ E1)).
Qed.
Lemma split_one_sizes g j g' : (exists v, nth_error (g_vars g) j = Some v /\ freev v) -> split_one g j = Ok g' -> same_sizes g g'.
Proof.
  intros (v & EV & [F1 F2]). unfold split_one. destruct (index (g_from g) j); cbn [bind]; try discriminate.
  destruct (index (g_orig g) _); cbn [bind]; try discriminate. destruct (set_index (g_orig g) _ _); cbn [bind]; try discriminate.
  rewrite (proj2 (index_ok _ _ _) EV). cbn [bind]. destruct (set_index (g_vars g ++ _) j _) as [vars| |] eqn:E; cbn [bind]; try discriminate.
  apply set_index_ok in E. intros [= <-]. subst. constructor; [|reflexivity]. unfold inequality_rows. cbn [g_types g_vars]. f_equal.
  assert (L : (j < length (g_vars g))%nat) by (apply nth_error_Some; congruence).
  rewrite (count_upd _ _ _ _ v).
  - rewrite filter_app, app_length. cbn. lia.
  - now rewrite nth_error_app1.
  - unfold bounded_twice, set_lower_zero. cbn. now rewrite F1, F2.
Qed.
Lemma split_fold_sizes l : forall g g', gpre l g -> foldM split_one l g = Ok g' -> same_sizes g g'.
Proof.
  induction l as [|j l IH]; intros g g' P; cbn [foldM]; [intros [= <-]; apply same_sizes_refl|].
  destruct (split_one g j) as [g1| |] eqn:E1; cbn [bind]; try discriminate. intros E.
  assert (Lj : (j < nr_vars g)%nat /\ freev (var g j)) by (apply (gp_list _ _ P); now left). destruct Lj as [Lj Fj].
  eapply same_sizes_trans; [|exact (IH _ _ (split_pre _ _ _ _ P E1) E)].
  apply (split_one_sizes g j); [|assumption]. exists (var g j). split; [now apply nth_error_nth'|assumption].
Qed.
Lemma split_free_sizes g g' : general_ok g -> split_free g = Ok g' -> same_sizes g g'.
Proof.
  intros P E. rewrite (split_free_fold g P) in E. eapply same_sizes_trans; [|exact (split_fold_sizes _ _ _ (with_negated_pre g P) E)].
  constructor; [reflexivity|]. unfold entries. cbn [g_cols with_negated]. rewrite concat_app, app_length. lia.
Qed.
Lemma standardize_sizes g gc : general_ok g -> standardize g = Ok gc -> same_sizes g (fst gc).
Proof.
  intros P. unfold standardize, transform_variables. destruct (split_free g) as [g1| |] eqn:E1; cbn [bind]; try discriminate.
  destruct (foldM transform_one _ g1) as [g2| |] eqn:E2; cbn [bind]; try discriminate.
  destruct (make_b_non_negative g2) as [g3| |] eqn:E3; cbn [bind]; try discriminate. intros E4.
  eapply same_sizes_trans; [exact (split_free_sizes _ _ P E1)|]. eapply same_sizes_trans; [exact (transform_sizes _ _ _ E2)|].
  eapply same_sizes_trans; [exact (make_b_sizes _ _ E3)|]. eapply same_sizes_trans; [exact (minimization_sizes g3)|]. now apply reorder_sizes.
Qed.

(** ** The matrix data *)
Lemma bounds_count l : forall k tb bs, length (snd (fold_left number_bound (number_from k l) (tb, bs))) =
  (length bs + length (filter (fun v => match v_upper v with Some _ => true | None => false end) l))%nat.
Proof.
  induction l as [|v l IH]; intros k tb bs; cbn [number_from fold_left filter snd length]; [lia|].
  unfold number_bound at 2. cbn [snd fst]. destruct (v_upper v); rewrite IH; [rewrite app_length|]; cbn [length]; lia.
Qed.
Section Derived.
Variables (g : general) (c : counts) (d : matrix_data).
Hypothesis (P : general_ok g) (SH : standard_shape g c) (D : derived g c d) (E : derive_matrix_data g c = Ok d).
Lemma derived_bounds : length (md_bounds d) = length (filter bounded_twice (g_vars g)).
Proof using D SH E.
  unfold derive_matrix_data in E. destruct (slice _ _ _); cbn [bind] in E; try discriminate. destruct (mapM range_size _); cbn [bind] in E; try discriminate.
  injection E as <-. unfold new_md. pose proof (bounds_count (g_vars g) 0 [] []) as H. destruct (fold_left _ _ _). cbn [snd md_bounds length Nat.add] in *. rewrite H. f_equal.
  assert (L : forall v, In v (g_vars g) -> v_lower v = Some 0).
  { intros v Hv. apply (In_nth _ _ no_variable) in Hv. destruct Hv as (j & Lj & <-). exact (ss_lower _ _ SH j Lj). }
  apply filter_ext_in. intros v Hv. unfold bounded_twice. now rewrite (L v Hv).
Qed.
Lemma shape_counts : (length (filter inequality (g_types g)) + length (filter is_range (g_types g)) = n_range c + n_range c + n_less c + n_greater c)%nat.
Proof using P SH.
  assert (N : forall i, nth i (g_types g) Equal = row_type g i) by reflexivity.
  assert (SPLIT : exists a b e f, g_types g = a ++ b ++ e ++ f /\ length a = n_equal c /\ length b = n_range c /\ length e = n_less c /\ length f = n_greater c /\
    (forall t, In t a -> t = Equal) /\ (forall t, In t b -> exists r, t = Range r) /\ (forall t, In t e -> t = Less) /\ (forall t, In t f -> t = Greater)).
  { set (ts := g_types g). assert (LT : length ts = (n_equal c + n_range c + n_less c + n_greater c)%nat) by (unfold ts; rewrite (gok_types _ P); exact (ss_rows _ _ SH)).
    exists (firstn (n_equal c) ts), (firstn (n_range c) (skipn (n_equal c) ts)), (firstn (n_less c) (skipn (n_equal c + n_range c) ts)), (skipn (n_equal c + n_range c + n_less c) ts).
    rewrite !firstn_length, !skipn_length.
    assert (SK : forall a b (l : list rel), skipn (a + b) l = skipn b (skipn a l)).
    { induction a as [|a IHa]; intros b [|y l]; cbn [Nat.add skipn]; try reflexivity; [now rewrite skipn_nil|apply IHa]. }
    assert (NS : forall a (l : list rel) i, nth i (skipn a l) Equal = nth (a + i) l Equal).
    { induction a as [|a IHa]; intros [|y l] i; cbn [Nat.add skipn nth]; try reflexivity; [now destruct i|apply IHa]. }
    assert (NF : forall a (l : list rel) i, (i < a)%nat -> nth i (firstn a l) Equal = nth i l Equal).
    { induction a as [|a IHa]; intros [|y l] [|i] L; cbn [firstn nth]; try reflexivity; try lia. apply IHa. lia. }
    split; [|repeat split; try lia].
    - rewrite !SK, !firstn_skipn. reflexivity.
    - intros t Ht. apply (In_nth _ _ Equal) in Ht. destruct Ht as (i & Li & <-). rewrite firstn_length in Li. rewrite NF by lia. apply (ss_equal _ _ SH). lia.
    - intros t Ht. apply (In_nth _ _ Equal) in Ht. destruct Ht as (i & Li & <-). rewrite firstn_length, skipn_length in Li. rewrite NF, NS by lia. apply (ss_range _ _ SH). lia.
    - intros t Ht. apply (In_nth _ _ Equal) in Ht. destruct Ht as (i & Li & <-). rewrite firstn_length, skipn_length in Li. rewrite NF, NS by lia. apply (ss_less _ _ SH). lia.
    - intros t Ht. apply (In_nth _ _ Equal) in Ht. destruct Ht as (i & Li & <-). rewrite skipn_length in Li. rewrite NS. apply (ss_greater _ _ SH). lia. }
  destruct SPLIT as (a & b & e & f & -> & La & Lb & Le & Lf & Ha & Hb & He & Hf).
  assert (ALL : forall (q : rel -> bool) l, (forall t, In t l -> q t = true) -> length (filter q l) = length l).
  { clear. intros q l. induction l as [|t l IH]; intros H; [reflexivity|]. cbn [filter]. rewrite (H t) by now left. cbn [length]. f_equal. apply IH. intros; apply H; now right. }
  assert (NONE : forall (q : rel -> bool) l, (forall t, In t l -> q t = false) -> length (filter q l) = 0%nat).
  { clear. intros q l. induction l as [|t l IH]; intros H; [reflexivity|]. cbn [filter]. rewrite (H t) by now left. apply IH. intros; apply H; now right. }
  rewrite !filter_app, !app_length.
  rewrite (NONE inequality a), (ALL inequality b), (ALL inequality e), (ALL inequality f), (NONE is_range a), (ALL is_range b), (NONE is_range e), (NONE is_range f); try lia;
    intros t Ht; first [rewrite (Ha t Ht)|destruct (Hb t Ht) as [r ->]|rewrite (He t Ht)|rewrite (Hf t Ht)]; reflexivity.
Qed.
Lemma derived_rows : p_rows (md_provider d) = (n_equal c + inequality_rows g)%nat.
Proof using P SH D E. rewrite (r_total g c d D). unfold inequality_rows. pose proof shape_counts. rewrite derived_bounds. lia. Qed.
Lemma derived_redundant rm : redundant (md_provider d) rm -> (length rm + inequality_rows g <= p_rows (md_provider d))%nat.
Proof using P SH D E.
  intros R. rewrite derived_rows.
  assert (length rm <= n_equal c)%nat; [|lia]. rewrite <- (seq_length (n_equal c) 0). apply NoDup_incl_length; [exact (proj1 R)|].
  intros r Hr. apply in_seq. pose proof (redundant_equal g c d D rm r R Hr). lia.
Qed.
Lemma derived_not_all rm : (1 <= entries g + inequality_rows g)%nat -> redundant (md_provider d) rm -> (length rm < p_rows (md_provider d))%nat.
Proof using P SH D E.
  intros L R. destruct (Nat.eq_dec (inequality_rows g) 0) as [Z|Z]; [|pose proof (derived_redundant rm R); lia].
  destruct (Nat.lt_ge_cases (length rm) (p_rows (md_provider d))) as [C|C]; [assumption|]. exfalso.
  assert (NE : exists j, (j < nr_vars g)%nat /\ nth j (g_cols g) [] <> []).
  { unfold entries in L. rewrite Z, Nat.add_0_r in L. rewrite <- (gok_cols _ P). clear - L. induction (g_cols g) as [|c0 l IH]; cbn [concat length] in L; [lia|].
    destruct c0 as [|x c0]; [|exists 0%nat; split; [cbn; lia|discriminate]]. destruct (IH L) as (j & Lj & Hj). exists (S j). split; [cbn; lia|exact Hj]. }
  destruct NE as (j & Lj & Nj). pose proof (md_provider_ok g c d P SH D) as PO.
  assert (Lj' : (j < p_cols (md_provider d))%nat) by (change (p_cols (md_provider d)) with (md_nr_columns d); rewrite (c_total g c d D); lia).
  pose proof (pok_cols _ PO j Lj') as W.
  assert (HC : exists i v l, p_col (md_provider d) j = (i, v) :: l).
  { cbn [p_col md_provider]. unfold md_column_at. rewrite (class_normal g c d D j Lj), (dv_cols _ _ _ D).
    destruct (nth j (g_cols g) []) as [|[i v] l]; [congruence|]. destruct (bound_row_index d j); cbn [column_entries app]; do 3 eexists; reflexivity. }
  destruct HC as (i & v & l & HC). assert (W' := W). rewrite HC in W'. destruct W' as (Hi & Hv & Hl).
  assert (AL : incl (seq 0 (p_rows (md_provider d))) rm).
  { apply NoDup_length_incl; [exact (proj1 R)|rewrite seq_length; assumption|]. intros r Hr. apply in_seq. split; [lia|]. apply (proj2 R r Hr). }
  destruct (proj2 R i (AL i ltac:(apply in_seq; lia))) as (Li & y & Y1 & Y2 & Y3 & _). specialize (Y3 j Lj').
  rewrite (sum_single _ i _ Li) in Y3.
  - rewrite Y1, Qcmult_1_l, HC in Y3. cbn [den] in Y3. rewrite Nat.eqb_refl in Y3. apply Hv.
    rewrite (den_below (S i) (p_rows (md_provider d)) l i) in Y3 by (try assumption; lia). rewrite Qcplus_0_r in Y3. exact Y3.
  - intros k Lk Nk. rewrite (Y2 k) by (try assumption; apply AL, in_seq; lia). ring.
Qed.
End Derived.


(** ** With the LU decomposition two inequalities are enough *)
Section TwoRows.
Variables (g g' : general) (c : counts) (d : matrix_data).
Hypothesis (G : general_ok g) (ES : standardize g = Ok (g', c)) (P : general_ok g') (SH : standard_shape g' c) (D : derived g' c d)
  (E : derive_matrix_data g' c = Ok d) (L : (2 <= inequality_rows g)%nat).
Lemma two_sizes : (2 <= p_rows (md_provider d))%nat /\ forall rm, redundant (md_provider d) rm -> (length rm + 2 <= p_rows (md_provider d))%nat.
Proof using G ES P SH D E L.
  pose proof (sz_rows _ _ (standardize_sizes g _ G ES)) as S. cbn [fst] in S. split.
  - rewrite (derived_rows g' c d P SH D E). lia.
  - intros rm R. pose proof (derived_redundant g' c d P SH D E rm R). lia.
Qed.
End TwoRows.
Lemma lu_two_no_panic n fuel g : general_ok g -> acyclic (g_orig g) -> (2 <= inequality_rows g)%nat -> solve_general UseLU n fuel g <> Panic.
Proof.
  intros P A L. unfold solve_general. destruct (standardize_spec g P) as (g' & c & F & G & ES & P' & SH & ST).
  rewrite ES. cbn [bind fst snd]. destruct (derive_spec g' c P' SH) as (d & ED & D). rewrite ED. cbn [bind].
  pose proof (md_provider_ok g' c d P' SH D) as PO. destruct (two_sizes g g' c d P ES P' SH D ED L) as [S1 S2].
  pose proof (run_no_panic_lu n fuel _ PO S1 S2) as NP.
  destruct (run UseLU n fuel (md_provider d)) as [[|z|]| |] eqn:ER; cbn [bind]; try discriminate; [|congruence].
  destruct (run_optimum _ n fuel _ z PO ER) as [O W]. destruct (reconstruct_spec g' c d P' D z W) as [W' R].
  pose proof (full_solution_no_panic fuel g' _ W' (standardized_acyclic _ _ _ _ ST A)) as Q.
  destruct (full_solution fuel g' (reconstruct d z)); cbn [bind]; try discriminate. congruence.
Qed.
Lemma lu_two_terminates g : general_ok g -> acyclic (g_orig g) -> (2 <= inequality_rows g)%nat ->
  exists fuel a, forall fuel', (fuel <= fuel')%nat -> solve_general UseLU FirstProfitable fuel' g = Ok a.
Proof.
  intros P A LL. unfold solve_general. destruct (standardize_spec g P) as (g' & c & F & G & ES & P' & SH & ST).
  rewrite ES. cbn [bind fst snd]. destruct (derive_spec g' c P' SH) as (d & ED & D). rewrite ED. cbn [bind].
  pose proof (md_provider_ok g' c d P' SH D) as PO. destruct (two_sizes g g' c d P ES P' SH D ED LL) as [S1 S2].
  destruct (run_first_profitable UseLU _ PO (sizes_lu _ S1 S2)) as (f & res & H).
  destruct res as [|z|].
  - exists f, NoSolution. intros f' L. rewrite (H f' L). reflexivity.
  - destruct (run_optimum _ _ f _ z PO (H f (le_n f))) as [O W]. destruct (reconstruct_spec g' c d P' D z W) as [W' R].
    destruct (full_solution_returns g' (reconstruct d z) P' W' (standardized_acyclic _ _ _ _ ST A)) as (f0 & Hf).
    destruct (Hf f0 (le_n f0)) as [s Hs].
    exists (f + f0)%nat, (Solved_to s). intros f' L. rewrite (H f') by lia. cbn [bind].
    rewrite (full_solution_mono f0 f' _ _ _ ltac:(lia) Hs). reflexivity.
  - exists f, NoBound. intros f' L. rewrite (H f' L). reflexivity.
Qed.
