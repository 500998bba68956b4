(** * Builds with debug assertions: from a general form to a solution (proofs about PipelineD.v) *)
From Verif Require Import PipelineD SpecSizes SizesP SparseP LinAlg KindP InitP PermP KeptP CarryP SearchP StandardP StandardQ StandardR RangesP PipelineP MatrixDataP DebugLuP DebugP PreBooks PreAgreeWhole.
Local Open Scope Qc_scope.

(** ** Consistency does not depend on the numbers in a program *)
Record same_books (g g' : general) : Prop := mk_same_books {
  sb_orig : g_orig g' = g_orig g;
  sb_from : g_from g' = g_from g;
  sb_rows : g_rows g' = g_rows g;
  sb_vars : nr_vars g' = nr_vars g
}.
Lemma same_books_refl g : same_books g g. Proof. now constructor. Qed.
Lemma same_books_trans a b c : same_books a b -> same_books b c -> same_books a c.
Proof. intros [] []. constructor; congruence. Qed.
Lemma books_consistent g g' : general_ok g -> general_ok g' -> same_books g g' -> is_consistent g' = is_consistent g.
Proof.
  intros P P' [O F R V]. unfold is_consistent. cbv zeta.
  rewrite (gok_cols _ P), (gok_cols _ P'), (gok_b _ P), (gok_b _ P'), (gok_types _ P), (gok_types _ P').
  change (length (g_vars g')) with (nr_vars g'). change (length (g_vars g)) with (nr_vars g). now rewrite O, F, R, V.
Qed.
Lemma set_index_length {A} (l : list A) i x l' : set_index l i x = Ok l' -> length l' = length l.
Proof. unfold set_index. destruct (Nat.ltb i (length l)); [|discriminate]. intros [= <-]. apply upd_length. Qed.
Lemma flip_books g j g' : flip_one g j = Ok g' -> same_books g g'.
Proof.
  unfold flip_one. destruct (index (g_vars g) j) as [v| |]; cbn [bind]; try discriminate.
  destruct (v_lower v), (v_upper v); try (intros [= <-]; apply same_books_refl).
  destruct (set_index (g_vars g) j _) as [vars| |] eqn:E; cbn [bind]; try discriminate.
  destruct (index (g_cols g) j); cbn [bind]; try discriminate. destruct (set_index (g_cols g) j _); cbn [bind]; try discriminate.
  intros [= <-]. constructor; try reflexivity. exact (set_index_length _ _ _ _ E).
Qed.
Lemma shift_books g j g' : shift_one g j = Ok g' -> same_books g g'.
Proof.
  unfold shift_one. destruct (index (g_vars g) j) as [v| |]; cbn [bind]; try discriminate.
  destruct (v_lower v); try (intros [= <-]; apply same_books_refl).
  destruct (index (g_cols g) j); cbn [bind]; try discriminate. destruct (foldM _ _ _); cbn [bind]; try discriminate.
  destruct (set_index (g_vars g) j _) as [vars| |] eqn:E; cbn [bind]; try discriminate.
  intros [= <-]. constructor; try reflexivity. exact (set_index_length _ _ _ _ E).
Qed.
Lemma transform_books l : forall g g', foldM transform_one l g = Ok g' -> same_books g g'.
Proof.
  induction l as [|j l IH]; intros g g'; cbn [foldM]; [intros [= <-]; apply same_books_refl|].
  unfold transform_one at 1. destruct (flip_one g j) as [g1| |] eqn:E1; cbn [bind]; try discriminate.
  destruct (shift_one g1 j) as [g2| |] eqn:E2; cbn [bind]; try discriminate. intros E.
  eapply same_books_trans; [exact (flip_books _ _ _ E1)|]. eapply same_books_trans; [exact (shift_books _ _ _ E2)|]. now apply IH.
Qed.
Lemma make_b_books g g' : make_b_non_negative g = Ok g' -> same_books g g'.
Proof. unfold make_b_non_negative. destruct (foldM negate_row _ _); cbn [bind]; try discriminate. intros [= <-]. now constructor. Qed.
Lemma minimization_books g : same_books g (make_minimization g).
Proof.
  unfold make_minimization. destruct (g_objective g); [apply same_books_refl|]. constructor; try reflexivity.
  unfold nr_vars. cbn [g_vars]. apply map_length.
Qed.
Lemma reorder_books g gc : reorder g = Ok gc -> same_books g (fst gc).
Proof.
  unfold reorder. destruct (number_types _ _) as [ks c]. cbv zeta.
  destruct (foldM _ _ _); cbn [bind]; try discriminate. destruct (mapM ofopt _); cbn [bind]; try discriminate.
  destruct (mapM _ _); cbn [bind]; try discriminate. intros [= <-]. now constructor.
Qed.

(** ** Splitting the free variables *)
(** no variable has been split *)
Definition unsplit (g : general) : Prop := forall o name p q, nth_error (g_orig g) o <> Some (name, ActiveFree p q).
Lemma sorted_nth l : sorted_by (fun x => x) l = true <-> forall i, (S i < length l)%nat -> (nth i l 0 <= nth (S i) l 0)%nat.
Proof.
  induction l as [|x [|y l] IH].
  - split; [intros _ i H; cbn in H; lia|reflexivity].
  - split; [intros _ i H; cbn in H; lia|reflexivity].
  - change (sorted_by (fun x => x) (x :: y :: l)) with (Nat.leb x y && sorted_by (fun x => x) (y :: l)).
    rewrite andb_true_iff, Nat.leb_le, IH. split.
    + intros [H1 H2] [|i] L; [exact H1|]. apply (H2 i). cbn [length] in *. lia.
    + intros H. split; [apply (H 0%nat); cbn; lia|]. intros i L. apply (H (S i)). cbn [length] in *. lia.
Qed.
Lemma sorted_nth_le l i j : sorted_by (fun x => x) l = true -> (i <= j)%nat -> (j < length l)%nat -> (nth i l 0 <= nth j l 0)%nat.
Proof.
  intros H. rewrite sorted_nth in H. induction 1 as [|j L IH]; intros B; [lia|].
  etransitivity; [apply IH; lia|]. now apply H.
Qed.
Lemma sorted_map_nth l dup : sorted_by (fun x => x) l = true -> sorted_by (fun x => x) dup = true -> (forall j, In j dup -> (j < length l)%nat) ->
  sorted_by (fun x => x) (map (fun j => nth j l 0%nat) dup) = true.
Proof.
  intros HL HD B. apply sorted_nth. intros i Li. rewrite map_length in Li.
  set (f := fun j => nth j l 0%nat). rewrite (nth_indep _ 0%nat (f 0%nat)) by (rewrite map_length; lia).
  rewrite (nth_indep (map f dup) 0%nat (f 0%nat)) by (rewrite map_length; lia). rewrite !map_nth. unfold f.
  apply sorted_nth_le; [assumption| |apply B, nth_In; lia]. now apply (proj1 (sorted_nth dup)).
Qed.
Lemma windows_sorted l : sorted_by (fun x => x) l = true -> is_sorted l = true.
Proof.
  unfold is_sorted. induction l as [|x [|y l] IH]; [reflexivity|reflexivity|].
  change (sorted_by (fun x => x) (x :: y :: l)) with (Nat.leb x y && sorted_by (fun x => x) (y :: l)).
  rewrite andb_true_iff. intros [H1 H2]. cbn [windows]. rewrite H1. cbn [andb]. now apply IH.
Qed.

Lemma kept_upd l o name j n : nth_error l o = Some (name, Active j) ->
  flat_map kept_index (upd l o (name, ActiveFree j n)) = flat_map kept_index l.
Proof.
  revert o. induction l as [|e l IH]; intros [|o]; cbn [nth_error upd flat_map]; try discriminate.
  - intros [= ->]. reflexivity.
  - intros H. now rewrite IH.
Qed.
Lemma free_upd l o name j n : nth_error l o = Some (name, Active j) ->
  length (filter PresolveD.is_free (upd l o (name, ActiveFree j n))) = S (length (filter PresolveD.is_free l)).
Proof.
  revert o. induction l as [|e l IH]; intros [|o]; cbn [nth_error upd filter]; try discriminate.
  - intros [= ->]. reflexivity.
  - intros H. destruct (PresolveD.is_free e); cbn [length]; now rewrite IH.
Qed.
Lemma split_books l : forall g g', gpre l g -> foldM split_one l g = Ok g' ->
  g_rows g' = g_rows g /\ g_cols g' = g_cols g /\ length (g_types g') = length (g_types g) /\ length (g_b g') = length (g_b g) /\
  nr_vars g' = (nr_vars g + length l)%nat /\
  g_from g' = g_from g ++ map (fun j => nth j (g_from g) 0%nat) l /\ length (g_orig g') = length (g_orig g) /\
  flat_map kept_index (g_orig g') = flat_map kept_index (g_orig g) /\
  length (filter PresolveD.is_free (g_orig g')) = (length (filter PresolveD.is_free (g_orig g)) + length l)%nat.
Proof.
  induction l as [|j l IH]; intros g g' P; cbn [foldM].
  - intros [= <-]. cbn [map length]. rewrite app_nil_r. repeat split; lia.
  - assert (Lj : (j < nr_vars g)%nat /\ freev (var g j)) by (apply (gp_list _ _ P); now left). destruct Lj as [Lj _].
    destruct (gp_free _ _ P j (or_introl eq_refl)) as [_ Fn].
    destruct (split_one_ok g j Lj (gp_from _ _ P) Fn) as (g1 & E1 & HO & HF & HR & HC & HT & HB & HN & _ & _ & _ & HFr & name & Hn & HOr).
    rewrite E1. cbn [bind]. intros E. destruct (IH g1 g' (split_pre _ _ _ _ P E1) E) as (R1 & R2 & R3 & R4 & R5 & R6 & R7 & R8 & R9).
    rewrite R1, R2, R3, R4, R5, R6, R7, R8, R9, HR, HC, HT, HB, HN, HFr, HOr, (kept_upd _ _ _ _ _ Hn), (free_upd _ _ _ _ _ Hn), upd_length.
    cbn [map length]. repeat split; try lia. rewrite <- app_assoc. cbn [app]. do 2 f_equal.
    apply map_ext_in. intros k Hk. apply nth_app_l. rewrite (gp_from _ _ P). apply (gp_list _ _ P). now right.
Qed.

Lemma unsplit_free g : unsplit g -> length (filter PresolveD.is_free (g_orig g)) = 0%nat.
Proof.
  intros U. destruct (filter PresolveD.is_free (g_orig g)) as [|[name e] l] eqn:E; [reflexivity|]. exfalso.
  assert (H : In (name, e) (filter PresolveD.is_free (g_orig g))) by (rewrite E; now left). apply filter_In in H. destruct H as [H1 H2].
  apply In_nth_error in H1. destruct H1 as [o Ho]. destruct e as [j|p q|r]; try discriminate. exact (U _ _ _ _ Ho).
Qed.
Lemma major_ok_list m l : (forall c, In c l -> wfs m c) -> major_ok l (length l) m = true.
Proof.
  intros W. unfold major_ok. rewrite Nat.eqb_refl. cbn [andb].
  rewrite !andb_true_iff. repeat split; apply forallb_forall; intros c Hc.
  - now apply (fwf_sorted m c 0), W.
  - now apply (fwf_below m c 0), W.
  - now apply (fwf_nonzero m c 0), W.
Qed.
Lemma major_ok_app a b na nb m : major_ok a na m = true -> major_ok b nb m = true -> major_ok (a ++ b) (na + nb) m = true.
Proof.
  unfold major_ok. rewrite !andb_true_iff, !Nat.eqb_eq. intros [[[A1 A2] A3] A4] [[[B1 B2] B3] B4].
  rewrite app_length, A1, B1, !forallb_app, A2, A3, A4, B2, B3, B4. repeat split.
Qed.
Lemma filter_range_sorted (f : nat -> bool) n : sorted_by (fun x => x) (filter f (range 0 n)) = true.
Proof.
  unfold range. rewrite Nat.sub_0_r. generalize 0%nat. induction n as [|n IH]; intros a; cbn [seq filter]; [reflexivity|].
  destruct (f a); [|apply IH]. specialize (IH (S a)). destruct (filter f (seq (S a) n)) as [|y l] eqn:E; [reflexivity|].
  change (sorted_by (fun x => x) (a :: y :: l)) with (Nat.leb a y && sorted_by (fun x => x) (y :: l)). rewrite IH, andb_true_r.
  assert (I : In y (filter f (seq (S a) n))) by (rewrite E; now left). apply filter_In in I. destruct I as [I _]. apply in_seq in I.
  apply Nat.leb_le. lia.
Qed.

Lemma split_debug g : general_ok g -> is_consistent g = true -> unsplit g -> split_free_d g = split_free g /\
  exists g', split_free g = Ok g' /\ bounded_ok g' /\ is_consistent g' = true.
Proof.
  intros P C U. destruct (split_free_corr g P) as (g' & E & B & _).
  assert (C' := C). unfold is_consistent in C'. cbv zeta in C'. rewrite (unsplit_free g U), !Nat.sub_0_r in C'.
  rewrite !andb_true_iff in C'. destruct C' as [[[[[[[[[_ _] _] _] C1] C2] C3] C4] _] C5].
  assert (E' := E). rewrite (split_free_fold g P) in E'.
  unfold split_free_d, split_free. rewrite (free_columns_found g P). cbn [bind]. rewrite (negated_columns_found g P). cbn [bind].
  assert (Hdup : forall j, In j (free_columns g) <-> (j < nr_vars g)%nat /\ freev (var g j)) by (intros; now apply free_columns_In).
  assert (LC : length (negated_columns g) = length (free_columns g)) by apply map_length.
  assert (M1 : major_ok (negated_columns g) (length (free_columns g)) (g_rows g) = true).
  { rewrite <- LC. apply major_ok_list. intros c Hc. apply in_map_iff in Hc. destruct Hc as (j & <- & Hj). apply fwf_snegate, (gok_sorted _ P). now apply Hdup. }
  assert (M0 : major_ok (g_cols g) (length (g_cols g)) (g_rows g) = true).
  { apply major_ok_list. intros c Hc. apply In_nth with (d := []) in Hc. destruct Hc as (j & Lj & <-). apply (gok_sorted _ P).
    now rewrite <- (gok_cols _ P). }
  rewrite !asserted; [|now apply major_ok_app|assumption]. split; [reflexivity|]. exists g'. split; [assumption|]. split; [assumption|].
  pose proof (with_negated_pre g P) as P1. set (dup := free_columns g) in *. set (g1 := with_negated g) in *.
  destruct (split_books _ _ _ P1 E') as (R1 & R2 & R3 & R4 & R5 & R6 & R7 & R8 & R9).
  destruct B as [P' _]. unfold is_consistent. cbv zeta.
  cbn [g_rows g_cols g_types g_b g_from g_orig g1 with_negated] in R1, R2, R3, R4, R5, R6, R7, R8, R9. change (nr_vars g1) with (nr_vars g) in R5.
  rewrite (unsplit_free g U), Nat.add_0_l in R9.
  change (length (g_vars g')) with (nr_vars g').
  rewrite R9, R8, R7, (gok_cols _ P'), (gok_b _ P'), (gok_types _ P'), (gok_from _ P'), !Nat.eqb_refl, C2, R5.
  replace (nr_vars g + length dup - length dup)%nat with (nr_vars g) by lia. rewrite (gok_cols _ P) in C1. rewrite C1.
  rewrite (proj2 (Nat.leb_le (length dup) (nr_vars g + length dup)) ltac:(lia)). cbn [andb].
  rewrite R6, <- (gok_from _ P), firstn_app, skipn_app, firstn_all, skipn_all, Nat.sub_diag. cbn [firstn skipn app]. rewrite app_nil_r.
  rewrite (gok_cols _ P), <- (gok_from _ P), firstn_all in C4. rewrite C4. cbn [andb].
  rewrite sorted_map_nth; [|assumption|apply filter_range_sorted|intros j Hj; rewrite (gok_from _ P); now apply Hdup]. cbn [andb].
  destruct (Nat.eqb_spec (length (g_from g) + length dup) 0) as [Z|Z]; [reflexivity|]. cbn [orb].
  assert (I : In (nth (length (g_from g) + length dup - 1) (g_from g ++ map (fun j => nth j (g_from g) 0%nat) dup) 0%nat) (map (fun j => nth j (g_from g) 0%nat) dup) \/
              dup = []).
  { destruct dup as [|x d]; [now right|]. left. rewrite app_nth2 by (cbn [length]; lia). apply nth_In. rewrite map_length. cbn [length]. lia. }
  apply Nat.ltb_lt. destruct I as [I|I].
  - apply in_map_iff in I. destruct I as (j & <- & Hj). apply Hdup in Hj. destruct Hj as [Lj [F1 F2]].
    destruct (gok_free _ P j Lj F1 F2) as [_ [name Hn]]. apply nth_error_Some. congruence.
  - rewrite I. cbn [map length]. rewrite app_nil_r, Nat.add_0_r. rewrite I in Z. cbn [length] in Z.
    rewrite (gok_cols _ P), <- (gok_from _ P), orb_true_iff in C5. destruct C5 as [C5|C5].
    + apply Nat.eqb_eq in C5. lia.
    + now apply Nat.ltb_lt.
Qed.

(** ** Standardizing *)
Lemma standardize_debug g : general_ok g -> is_consistent g = true -> unsplit g -> standardize_d g = standardize g.
Proof.
  intros P C U. unfold standardize_d, standardize, transform_variables_d, transform_variables.
  destruct (split_debug g P C U) as (E0 & g1 & E1 & [P1 B1] & C1). rewrite E0, E1. cbn [bind]. rewrite asserted by assumption.
  destruct (transform_fold (range 0 (length (g_vars g1))) g1) as (g2 & E2 & N2 & P2 & _).
  { intros j Hj. apply In_range in Hj. split; [unfold nr_vars; lia|]. apply B1. unfold nr_vars. lia. }
  { apply seq_NoDup. } { assumption. }
  rewrite E2. cbn [bind]. pose proof (transform_books _ _ _ E2) as S2.
  rewrite asserted by now rewrite (books_consistent g1 g2). cbn [bind].
  unfold make_b_non_negative_d. destruct (make_b_corr g2 P2) as (g3 & E3 & P3 & V3 & _). rewrite E3. cbn [bind].
  pose proof (make_b_books _ _ E3) as S3.
  rewrite asserted by now rewrite (books_consistent g2 g3), (books_consistent g1 g2). cbn [bind].
  pose proof (min_facts g3) as M. cbv zeta in M. destruct M as (MO & MN & MV & MX & MB & MR & MP & MF & MC & MOr & MCost). specialize (MP P3).
  pose proof (minimization_books g3) as S4. set (g4 := make_minimization g3) in *.
  destruct (reorder_corr g4 MP) as (g5 & c & E5 & P5 & V5 & X5 & C5 & D5 & K5 & R5). unfold reorder_d. rewrite E5. cbn [bind fst].
  pose proof (reorder_books _ _ E5) as S5. cbn [fst] in S5.
  rewrite !asserted; [reflexivity| |].
  - now rewrite (books_consistent g4 g5), (books_consistent g3 g4), (books_consistent g2 g3), (books_consistent g1 g2).
  - rewrite (gok_b _ P5), (gok_b _ MP). apply Nat.eqb_eq. exact R5.
Qed.

(** ** The matrix data *)
Lemma bounds_places l : forall k tb bs, length (fst (fold_left number_bound (number_from k l) (tb, bs))) = (length tb + length l)%nat.
Proof.
  induction l as [|v l IH]; intros k tb bs; cbn [number_from fold_left fst length]; [lia|].
  unfold number_bound at 2. cbn [snd fst]. destruct (v_upper v); rewrite IH; rewrite app_length; cbn [length]; lia.
Qed.
Lemma derive_debug g c : general_ok g -> standard_shape g c -> derive_matrix_data_d g c = derive_matrix_data g c.
Proof.
  intros P SH. destruct (derive_spec g c P SH) as (d & E & D). unfold derive_matrix_data_d, derive_matrix_data in *.
  rewrite !asserted.
  - destruct (slice _ _ _) as [ts| |]; cbn [bind] in *; try discriminate. destruct (mapM range_size ts) as [rs| |] eqn:Er; cbn [bind] in *; try discriminate.
    injection E as E. unfold new_md_d. rewrite E. pose proof (dv_ranges _ _ _ D) as DR.
    assert (ER : md_ranges d = rs) by (rewrite <- E; unfold new_md; destruct (fold_left _ _ _); reflexivity). rewrite ER in DR.
    rewrite !asserted; [reflexivity| | | |].
    + apply Nat.eqb_eq. exact (e_lower_rows g c d SH D).
    + apply Nat.eqb_eq. rewrite <- E. unfold new_md. pose proof (bounds_places (g_vars g) 0 [] []) as H. destruct (fold_left _ _ _). exact H.
    + apply Nat.leb_le. rewrite <- E. unfold new_md. pose proof (bounds_count (g_vars g) 0 [] []) as H. destruct (fold_left _ _ _). cbn [snd md_bounds length] in *.
      rewrite H. clear. induction (g_vars g) as [|v l IH]; cbn; [lia|]. destruct (v_upper v); cbn; lia.
    + apply Nat.eqb_eq. exact DR.
  - apply Nat.eqb_eq. symmetry. exact (ss_rows _ _ SH).
  - apply forallb_forall. intros [i t] Hi. apply In_number_from in Hi. rewrite Nat.sub_0_r in Hi. destruct Hi as [_ Hi].
    assert (Li : (i < g_rows g)%nat) by (rewrite <- (gok_types _ P); apply nth_error_Some; congruence).
    assert (Et : row_type g i = t) by (unfold row_type; now apply nth_error_nth). rewrite (ss_rows _ _ SH) in Li. unfold in_group.
    destruct (Nat.ltb_spec i (n_equal c)) as [L1|L1]; [now rewrite <- Et, (ss_equal _ _ SH i L1)|].
    destruct (Nat.ltb_spec i (n_equal c + n_range c)) as [L2|L2].
    { destruct (ss_range _ _ SH (i - n_equal c)) as [r Hr]; [lia|]. replace (n_equal c + (i - n_equal c))%nat with i in Hr by lia. now rewrite <- Et, Hr. }
    destruct (Nat.ltb_spec i (n_equal c + n_range c + n_less c)) as [L3|L3].
    { pose proof (ss_less _ _ SH (i - (n_equal c + n_range c)) ltac:(lia)) as Hr. replace (n_equal c + n_range c + (i - (n_equal c + n_range c)))%nat with i in Hr by lia. now rewrite <- Et, Hr. }
    rewrite (proj2 (Nat.ltb_lt _ _)) by lia.
    pose proof (ss_greater _ _ SH (i - (n_equal c + n_range c + n_less c)) ltac:(lia)) as Hr. replace (n_equal c + n_range c + n_less c + (i - (n_equal c + n_range c + n_less c)))%nat with i in Hr by lia. now rewrite <- Et, Hr.
Qed.

(** the rows that the solver leaves out can be removed from every column *)
Lemma redundant_filter g c d rm : general_ok g -> standard_shape g c -> derived g c d -> increasing_from 0 rm -> redundant (md_provider d) rm -> filter_ok d rm = true.
Proof.
  intros P SH D I R. assert (EQ : forall r, In r rm -> (r < n_equal c)%nat) by (intros r; now apply (redundant_equal g c d D)).
  assert (LR : (length rm <= n_equal c)%nat).
  { rewrite <- (seq_length (n_equal c) 0). apply NoDup_incl_length; [exact (proj1 R)|]. intros r Hr. apply in_seq. specialize (EQ r Hr). lia. }
  unfold filter_ok. rewrite !andb_true_iff. repeat split.
  - apply windows_sorted. now apply (increasing_sorted _ 0).
  - apply Nat.eqb_eq. apply DebugPhase.set_size_NoDup. exact (proj1 R).
  - apply below_In. intros r Hr. specialize (EQ r Hr). unfold md_nr_constraints. rewrite (e_lower g c d D). lia.
  - apply forallb_forall. intros j Hj. unfold md_column_at. destruct (classify d j) as [t k].
    assert (Q1 : eq_end d = n_equal c) by exact (e_eq g c d D).
    assert (Q2 : (eq_end d <= range_end d)%nat) by (unfold range_end; lia). assert (Q3 : (range_end d <= upper_end d)%nat) by (unfold upper_end; lia).
    assert (Q4 : (upper_end d <= lower_end d)%nat) by (unfold lower_end; lia). assert (Q5 : (lower_end d <= bound_end d)%nat) by (unfold bound_end; lia).
    destruct t; cbn [fst]; try (apply Nat.leb_le; lia).
    + unfold bound_row_index. destruct (classify d k) as [[] k']; try reflexivity.
      * destruct (nth k' (md_to_bound d) None); cbn [fst]; [apply Nat.leb_le; lia|reflexivity].
      * cbn [fst]. apply Nat.leb_le. lia.
    + apply andb_true_iff. split; apply Nat.leb_le; lia.
Qed.

(** ** Solutions *)
Lemma reconstruct_debug g c d z : general_ok g -> derived g c d -> (1 <= nr_vars g)%nat -> reconstruct_d d (md_nr_columns d) z = Ok (reconstruct d z).
Proof.
  intros P D L. unfold reconstruct_d, remove_d, reconstruct. rewrite asserted by apply Nat.eqb_refl.
  assert (LC : length (md_cols d) = nr_vars g) by (rewrite (dv_cols _ _ _ D); exact (gok_cols _ P)).
  assert (LT : (nr_vars g <= md_nr_columns d)%nat) by (rewrite (c_total g c d D); lia).
  rewrite !asserted; [reflexivity| | | |].
  - apply Nat.ltb_lt. unfold range. rewrite seq_length. lia.
  - apply below_In. intros x Hx. apply In_range in Hx. lia.
  - apply Nat.eqb_eq, DebugPhase.set_size_NoDup. apply seq_NoDup.
  - apply windows_sorted. apply (increasing_sorted _ 0). unfold range. generalize (md_nr_columns d - length (md_cols d))%nat as n. 
    generalize (length (md_cols d)) as a. assert (H : forall n a lo, (lo <= a)%nat -> increasing_from lo (seq a n)).
    { induction n as [|n IH]; intros a lo La; cbn [seq increasing_from]; [exact I|]. split; [assumption|]. apply IH. lia. }
    intros a n. apply H. lia.
Qed.
Lemma reshift_fold_debug n vars : forall k z, wfs n z -> (k + length vars <= n)%nat ->
  foldM (reshift_one_d n) (number_from k vars) z = Ok (fold_left reshift_one (number_from k vars) z).
Proof.
  induction vars as [|v vars IH]; intros k z W L; cbn [number_from fold_left foldM]; [reflexivity|]. cbn [length] in L.
  assert (E : reshift_one_d n z (k, v) = Ok (reshift_one z (k, v))).
  { assert (B : Nat.ltb k n = true) by (apply Nat.ltb_lt; lia). unfold reshift_one_d, reshift_one, shift_value_d, get_d, sset_d. rewrite !asserted by assumption. cbn [bind].
    destruct (shift_value_fwf n z k (- v_shift v) W ltac:(lia)) as [W1 D1]. set (z1 := shift_value z k (- v_shift v)) in *.
    destruct (v_flipped v); [|reflexivity]. rewrite !asserted by assumption. cbn [bind]. destruct (sget z1 k) as [x|] eqn:Ex; [|reflexivity].
    destruct (sget_some n z1 k x W1 Ex) as [_ Nx]. rewrite !asserted; [reflexivity| |assumption].
    apply negb_true_iff. apply qeqb_false. intros C. apply Nx. rewrite <- (Qcopp_involutive x), C. ring. }
  rewrite E. cbn [bind]. apply IH; [|lia]. apply reshift_one_spec; [assumption|lia].
Qed.
Lemma value_debug g z : general_ok g -> acyclic (g_orig g) -> forall fuel o, (o < length (g_orig g))%nat ->
  value_with_bfs_d (nr_vars g) (nr_vars g) fuel (g_orig g) z o = value_with_bfs fuel (g_orig g) z o.
Proof.
  intros P [rank A]. induction fuel as [|fuel IH]; intros o Lo; [reflexivity|]. cbn [value_with_bfs_d value_with_bfs].
  rewrite !asserted by (first [now apply Nat.ltb_lt|apply Nat.eqb_refl]).
  destruct (index (g_orig g) o) as [[name e]| |] eqn:E; cbn [bind]; try reflexivity. apply index_ok in E. cbn [snd]. unfold get_d.
  destruct e as [j|p q|[v|k l]]; cbn [bind]; try reflexivity.
  - rewrite asserted; [reflexivity|]. apply Nat.ltb_lt. now apply (gok_active _ P o name).
  - destruct (gok_split _ P o name p q E) as (Lp & Lq & _). rewrite !asserted by now apply Nat.ltb_lt. reflexivity.
  - rewrite (mapM_same _ (fun '(j, c) => let* v := value_with_bfs fuel (g_orig g) z j in Ok (v * c))); [reflexivity|].
    intros [j a] Hj. rewrite IH; [reflexivity|]. now apply (A o name k l j a).
Qed.
Lemma full_solution_debug fuel g z : general_ok g -> wfs (nr_vars g) z -> acyclic (g_orig g) -> full_solution_d fuel g (nr_vars g) z = full_solution fuel g z.
Proof.
  intros P W A. unfold full_solution_d, full_solution. rewrite asserted by apply Nat.eqb_refl.
  destruct (mapM _ z); cbn [bind]; try reflexivity. unfold reshift_d. rewrite asserted by apply Nat.eqb_refl.
  rewrite reshift_fold_debug by (try assumption; unfold nr_vars; lia). cbn [bind]. fold (reshift (g_vars g) z).
  rewrite (mapM_same _ (value_with_bfs fuel (g_orig g) (reshift (g_vars g) z))); [reflexivity|].
  intros o Ho. apply In_range in Ho. apply value_debug; try assumption. lia.
Qed.

(** ** All of it *)
Lemma unsplit_vars g gc : general_ok g -> standardize g = Ok gc -> (nr_vars g <= nr_vars (fst gc))%nat.
Proof.
  intros P. unfold standardize, transform_variables. destruct (split_free g) as [g1| |] eqn:E1; cbn [bind]; try discriminate.
  destruct (foldM transform_one _ g1) as [g2| |] eqn:E2; cbn [bind]; try discriminate.
  destruct (make_b_non_negative g2) as [g3| |] eqn:E3; cbn [bind]; try discriminate. intros E4.
  rewrite (split_free_fold g P) in E1. destruct (split_books _ _ _ (with_negated_pre g P) E1) as (_ & _ & _ & _ & R5 & _).
  rewrite (sb_vars _ _ (reorder_books _ _ E4)), (sb_vars _ _ (minimization_books g3)), (sb_vars _ _ (make_b_books _ _ E3)), (sb_vars _ _ (transform_books _ _ _ E2)), R5.
  change (nr_vars (with_negated g)) with (nr_vars g). lia.
Qed.
Lemma solve_debug r n fuel g : general_ok g -> is_consistent g = true -> unsplit g -> acyclic (g_orig g) ->
  (1 <= nr_vars g)%nat -> enough r g -> solve_general_debug r n fuel g = solve_general r n fuel g.
Proof.
  intros P C U A L EN. unfold solve_general_debug, solve_general. rewrite (standardize_debug g P C U).
  destruct (standardize_spec g P) as (g' & c & F & G & ES & P' & SH & ST). rewrite ES. cbn [bind fst snd].
  rewrite (derive_debug g' c P' SH). destruct (derive_spec g' c P' SH) as (d & ED & D). rewrite ED. cbn [bind].
  pose proof (md_provider_ok g' c d P' SH D) as PO. destruct (standardize_sizes g _ P ES) as [S1 S2]. cbn [fst] in S1, S2.
  pose proof (unsplit_vars g _ P ES) as L'. cbn [fst] in L'.
  assert (RD : run_debug r n fuel (md_provider d) = run r n fuel (md_provider d)).
  { destruct r; cbn [enough] in EN.
    - apply run_debug_lu; [assumption| |].
      + rewrite (derived_rows g' c d P' SH D ED). lia.
      + intros rm R. pose proof (derived_redundant g' c d P' SH D ED rm R). lia.
    - assert (NR : forall rm, redundant (md_provider d) rm -> (length rm < p_rows (md_provider d))%nat) by (intros rm; apply (derived_not_all g' c d P' SH D ED); lia).
      apply run_debug_rows; [assumption| |discriminate|assumption].
      assert (R0 : redundant (md_provider d) []) by (split; [constructor|intros i []]). specialize (NR [] R0). cbn [length] in NR. lia. }
  rewrite RD. destruct (run r n fuel (md_provider d)) as [[|z|]| |] eqn:ER; cbn [bind]; try reflexivity.
  destruct (run_optimum r n fuel _ z PO ER) as [O W]. rewrite (reconstruct_debug g' c d z P' D) by lia. cbn [bind].
  destruct (reconstruct_spec g' c d P' D z W) as [W' R].
  replace (md_nr_columns d - length (range (length (md_cols d)) (md_nr_columns d)))%nat with (nr_vars g').
  - rewrite full_solution_debug; [reflexivity|assumption|assumption|]. exact (standardized_acyclic _ _ _ _ ST A).
  - unfold range. rewrite seq_length, (dv_cols _ _ _ D), (gok_cols _ P'). pose proof (c_total g' c d D). lia.
Qed.
