(** * From phase one to phase two, with and without deleting rows *)
From Verif Require Export ArtP.

Lemma mapM_unshift a l : (forall j, In j l -> (a <= j)%nat) ->
  mapM (unshift a) l = Ok (map (fun j => (j - a)%nat) l).
Proof.
  induction l as [|j l IH]; intros H; [reflexivity|]. cbn [mapM map]. unfold unshift at 1.
  destruct (Nat.ltb_spec j a) as [C|C]; [specialize (H j (or_introl eq_refl)); lia|].
  cbn [bind]. rewrite IH by (intros; apply H; now right). reflexivity.
Qed.

(** ** The solution as a sparse vector *)
Lemma insert_by_fwf n i v : forall l lo, fwf lo n l -> (lo <= i < n)%nat -> v <> 0 ->
  ~ In i (map fst l) -> fwf lo n (insert_by fst (i, v) l).
Proof.
  induction l as [|[j w] l IH]; intros lo H Hi Nv Nin; cbn [insert_by].
  - cbn [fwf]. repeat split; try assumption; lia.
  - cbn [fst]. destruct H as (H1 & H2 & H3). destruct (Nat.ltb_spec i j) as [C|C].
    + cbn [fwf]. repeat split; try assumption; lia.
    + cbn [map fst In] in Nin. cbn [fwf]. repeat split; try assumption; try lia.
      apply IH; try assumption; [lia|tauto].
Qed.
Lemma insert_by_keys (x : nat * Qc) l j : In j (map fst (insert_by fst x l)) <-> j = fst x \/ In j (map fst l).
Proof.
  induction l as [|y l IH]; cbn [insert_by]; [cbn; intuition|].
  destruct (Nat.ltb (fst x) (fst y)); cbn [map In]; [intuition|]. rewrite IH. intuition.
Qed.
Lemma sort_by_fwf n l : NoDup (map fst l) -> (forall i v, In (i, v) l -> (i < n)%nat /\ v <> 0) ->
  wfs n (sort_by fst l).
Proof.
  unfold sort_by, wfs.
  assert (G : forall l acc, fwf 0 n acc -> NoDup (map fst l) ->
     (forall i v, In (i, v) l -> (i < n)%nat /\ v <> 0) ->
     (forall i, In i (map fst l) -> ~ In i (map fst acc)) ->
     fwf 0 n (fold_left (fun acc x => insert_by fst x acc) l acc)).
  { clear l. induction l as [|[i v] l IH]; intros acc Ha ND Hl Dis; cbn [fold_left]; [assumption|].
    cbn [map fst] in ND. inversion ND as [|? ? Nin ND']; subst.
    destruct (Hl i v (or_introl eq_refl)) as [Li Nv]. apply IH; try assumption.
    - apply insert_by_fwf; try assumption; [lia|]. apply Dis. now left.
    - intros i' v' Hin. apply Hl. now right.
    - intros i' Hin. rewrite insert_by_keys. intros [C|C].
      + cbn [fst] in C. congruence.
      + apply (Dis i'); [now right|assumption]. }
  intros ND Hl. apply G; try assumption; [exact I|]. intros i _ [].
Qed.

Lemma current_bfs_length O (L : BILaws O) k rhs t :
  tab_inv L k rhs t -> (length (current_bfs t) <= k_rows k)%nat.
Proof.
  intros [I _]. unfold current_bfs, carry_bfs.
  assert (HI : forall x l, length (insert_by (@fst nat Qc) x l) = S (length l)).
  { intros x l. induction l as [|y l IH]; [reflexivity|]. cbn [insert_by]. destruct (Nat.ltb (fst x) (fst y)); [reflexivity|]. cbn [length]. now rewrite IH. }
  assert (HS : forall l acc, length (fold_left (fun acc x => insert_by (@fst nat Qc) x acc) l acc) = (length l + length acc)%nat).
  { induction l as [|x l IH]; intros acc; [reflexivity|]. cbn [fold_left length]. rewrite IH, HI. lia. }
  assert (HF : forall l : list (nat * Qc), (length (filter (fun '(_, v) => negb (qzero v)) l) <= length l)%nat).
  { induction l as [|[x v] l IH]; [reflexivity|]. cbn [filter length]. destruct (negb (qzero v)); cbn [length]; lia. }
  unfold sort_by. rewrite HS. cbn [length]. rewrite Nat.add_0_r. etransitivity; [apply HF|].
  rewrite combine_length, (ci_lbasis _ _ _ _ _ I). lia.
Qed.
Lemma current_bfs_wfs O (L : BILaws O) k rhs t :
  tab_inv L k rhs t -> wfs (k_cols k) (current_bfs t).
Proof.
  intros [I _]. unfold current_bfs, carry_bfs.
  assert (Len : length (c_basis (t_im t)) = length (c_b (t_im t))).
  { rewrite (ci_lbasis _ _ _ _ _ I), (ci_lb _ _ _ _ _ I). reflexivity. }
  apply sort_by_fwf.
  - assert (G : forall (a : list nat) (b : list Qc), NoDup a ->
       NoDup (map fst (filter (fun '(_, v) => negb (qzero v)) (combine a b)))).
    { induction a as [|x a IH]; intros b ND; [constructor|]. destruct b as [|y b]; [constructor|].
      inversion ND as [|? ? Nin ND']; subst. cbn [combine filter].
      destruct (negb (qzero y)); [|now apply IH]. cbn [map fst]. constructor; [|now apply IH].
      intros C. apply in_map_iff in C. destruct C as ([x' y'] & E & C). cbn [fst] in E. subst x'.
      apply filter_In in C. destruct C as [C _]. apply in_combine_l in C. contradiction. }
    apply G. now apply (basis_NoDup O L k rhs).
  - intros i v H. apply filter_In in H. destruct H as [H Nz]. split.
    + apply in_combine_l in H. apply In_bcol in H. destruct H as (r & Lr & <-).
      apply (ci_range _ _ _ _ _ I). now rewrite <- (ci_lbasis _ _ _ _ _ I).
    + apply negb_true_iff in Nz. now qb.
Qed.

(** ** Deleting redundant rows does not change the problem *)
Lemma remove_rows_feasible p rm x :
  provider_ok p -> increasing_from 0 rm -> redundant p rm ->
  (feasible (remove_rows p rm) x <-> feasible p x).
Proof.
  intros Pok Inc Hr. pose proof Hr as [ND Hrd].
  assert (Srt : sorted_rows (p_rows p) rm) by (split; [assumption|]; intros i Hi; now apply Hrd).
  pose proof (kept_length _ _ Srt) as LK.
  assert (Row : forall i, (i < length (kept (p_rows p) rm))%nat ->
     sum (p_cols p) (fun j => den (p_filtered p rm j) i * x j) =
     sum (p_cols p) (fun j => den (p_col p j) (nth i (kept (p_rows p) rm) 0%nat) * x j)).
  { intros i Li. apply sum_ext. intros j Lj. f_equal.
    rewrite (pok_filter p Pok rm j Inc Hr Lj). apply (den_sremove (p_rows p)); try assumption.
    intros j' v Hin. apply (wfs_In_lt _ _ _ _ (pok_cols p Pok j Lj) Hin). }
  assert (Rhs : forall i, (i < length (kept (p_rows p) rm))%nat ->
     nthq (remove_indices (p_rhs p) rm) i = nthq (p_rhs p) (nth i (kept (p_rows p) rm) 0%nat)).
  { intros i Li. unfold nthq. rewrite nth_remove_indices; rewrite (pok_len p Pok); [reflexivity|assumption]. }
  unfold feasible, remove_rows. cbn [p_rows p_cols p_col p_rhs]. rewrite <- LK. split.
  - intros [H1 H2]. split; [|assumption].
    assert (Kept : forall i, (i < p_rows p)%nat -> ~ In i rm ->
       sum (p_cols p) (fun j => den (p_col p j) i * x j) = nthq (p_rhs p) i).
    { intros i Li Ni. assert (Hin : In i (kept (p_rows p) rm)) by now apply kept_In.
      destruct (In_nth _ _ 0%nat Hin) as (i' & Li' & Ei'). rewrite <- Ei'.
      rewrite <- Row, <- Rhs by assumption. now apply H1. }
    intros i Li. destruct (in_dec Nat.eq_dec i rm) as [Hin|Hout]; [|now apply Kept].
    destruct (Hrd i Hin) as (_ & y & Y1 & Y2 & Y3 & Y4).
    set (res := fun r => sum (p_cols p) (fun j => den (p_col p j) r * x j) - nthq (p_rhs p) r).
    assert (Z : sum (p_rows p) (fun r => y r * res r) = 0).
    { unfold res. rewrite (sum_ext _ _ (fun r => y r * sum (p_cols p) (fun j => den (p_col p j) r * x j)
          - y r * nthq (p_rhs p) r)) by (intros; ring).
      rewrite sum_minus, Y4.
      rewrite (dot_assoc (p_rows p) (p_cols p) y (fun r j => den (p_col p j) r) x).
      rewrite sum_zero; [ring|]. intros j Lj. rewrite Y3 by assumption. ring. }
    rewrite (sum_single _ i) in Z.
    2: assumption.
    2:{ intros r Lr Ne. destruct (in_dec Nat.eq_dec r rm) as [Hr'|Hr'].
        - rewrite Y2 by assumption. ring.
        - unfold res. rewrite Kept by assumption. ring. }
    rewrite Y1 in Z. unfold res in Z. qlra.
  - intros [H1 H2]. split; [|assumption]. intros i Li. rewrite Row, Rhs by assumption. apply H1.
    apply (proj1 (kept_In (p_rows p) rm _)). now apply nth_In.
Qed.

Section Finish.
Variable O : BIOps.
Variable L : BILaws O.
Variable p : provider.
Variable k : kind.
Variable c2r : nat -> nat.
Hypothesis Pok : provider_ok p.
Hypothesis AK : art_kind p k c2r.
Hypothesis Kok : kind_ok k.

Lemma removal_redundant t rows : removal_inv O L p k c2r t rows [] -> redundant p rows.
Proof.
  intros V. pose proof (ri_inc _ _ _ _ _ _ _ _ V) as Inc. pose proof (ri_lt _ _ _ _ _ _ _ _ V) as Lt.
  pose proof (ri_dep _ _ _ _ _ _ _ _ V) as D. cbn [map] in *. rewrite app_nil_r in *. split.
  - now apply increasing_NoDup with 0%nat.
  - intros i Hi. split; [now apply Lt|]. exact (D i Hi).
Qed.

Lemma real_col j : (k_art k <= j < k_cols k)%nat -> k_col k j = p_col p (j - k_art k).
Proof.
  intros H. rewrite (ak_cols _ _ _ AK) in H. rewrite <- (ak_rcol _ _ _ AK) by lia. f_equal. lia.
Qed.

Lemma from_artificial_spec t :
  removal_inv O L p k c2r t [] [] ->
  exists t', tab_from_artificial (t_im t) (k_art k) (t_cols t) p = Ok t' /\
    tab_inv L (non_artificial p) (rhs_of p) t'.
Proof.
  intros V. pose proof (ri_tab _ _ _ _ _ _ _ _ V) as [I S].
  pose proof (ak_rows _ _ _ AK) as Er.
  assert (Len : length (c_basis (t_im t)) = p_rows p) by (rewrite (ci_lbasis _ _ _ _ _ I); assumption).
  assert (Ge : forall r, (r < p_rows p)%nat -> (k_art k <= bcol (c_basis (t_im t)) r < k_cols k)%nat).
  { intros r Lr. split.
    - destruct (le_lt_dec (k_art k) (bcol (c_basis (t_im t)) r)) as [|C]; [assumption|].
      apply (ri_art _ _ _ _ _ _ _ _ V r Lr) in C. destruct C.
    - apply (ci_range _ _ _ _ _ I). now rewrite Er. }
  assert (GeB : forall j, In j (c_basis (t_im t)) -> (k_art k <= j)%nat).
  { intros j Hj. apply In_bcol in Hj. destruct Hj as (r & Lr & <-). rewrite Len in Lr. now apply Ge. }
  unfold tab_from_artificial, carry_from_artificial.
  rewrite (mapM_unshift _ _ GeB). cbn [bind].
  set (basis := map (fun j => (j - k_art k)%nat) (c_basis (t_im t))).
  assert (Lbas : length basis = p_rows p) by (unfold basis; rewrite map_length; assumption).
  assert (Bc : forall r, (r < p_rows p)%nat -> bcol basis r = (bcol (c_basis (t_im t)) r - k_art k)%nat).
  { intros r Lr. unfold bcol, basis. rewrite (nth_indep _ 0%nat (0 - k_art k)%nat) by now rewrite map_length, Len.
    apply (map_nth (fun j => (j - k_art k)%nat)). }
  destruct (ci_rep _ _ _ _ _ I) as (N & Rp & HN). rewrite Er in *.
  assert (Bm : meq (p_rows p) (p_rows p) (bmat k (c_basis (t_im t))) (bmat (non_artificial p) basis)).
  { intros i r _ Lr. unfold bmat, kA, non_artificial. cbn [k_col]. rewrite Bc by assumption.
    now rewrite real_col by now apply Ge. }
  destruct (minus_pi_spec O L (p_rows p) (c_bi (t_im t)) N (p_cost p) basis Rp Lbas) as (mpi & Em & _).
  rewrite Em. cbn [bind]. rewrite (minus_obj_spec (p_rows p)); [|assumption|rewrite (ci_lb _ _ _ _ _ I); assumption].
  cbn [bind].
  rewrite mapM_unshift by (intros j Hj; apply GeB; now apply S). cbn [bind].
  eexists. split; [reflexivity|]. split; cbn [t_im t_cols c_basis].
  - apply carry_from_inverse with N; unfold non_artificial; cbn [k_rows k_cols k_cost]; try assumption.
    + rewrite (ci_lb _ _ _ _ _ I); assumption.
    + intros r Lr. rewrite Bc by assumption. specialize (Ge r Lr). rewrite (ak_cols _ _ _ AK) in Ge. lia.
    + exact (inverse_ext _ _ _ _ _ (meq_refl _ _ N) Bm HN).
    + intros i Li. rewrite <- (ci_feas _ _ _ _ _ I i) by now rewrite Er. rewrite Er. apply sum_ext.
      intros r Lr. f_equal. symmetry. now apply Bm.
    + intros r Lr. apply (ci_nonneg _ _ _ _ _ I). now rewrite Er.
    + rewrite (minus_obj_spec (p_rows p)); [reflexivity|assumption|rewrite (ci_lb _ _ _ _ _ I); assumption].
  - intros j. unfold basis. rewrite !in_map_iff. split; intros (x & Ex & Hx); exists x; split; try assumption; now apply S.
Qed.

(** ** With rows deleted *)
Lemma filter_cols_spec (basis : list nat) rm : forall cols,
  (forall r, In r rm -> (r < length basis)%nat) ->
  exists cols', foldM (fun cols row => let* j := index basis row in
       Ok (filter (fun x => negb (Nat.eqb x j)) cols)) rm cols = Ok cols' /\
    forall x, In x cols' <-> In x cols /\ forall r, In r rm -> bcol basis r <> x.
Proof.
  induction rm as [|r rm IH]; intros cols H; cbn [foldM].
  - exists cols. split; [reflexivity|]. intros x. split; [|tauto]. intros Hx. split; [assumption|]. intros r [].
  - rewrite (index_Ok _ _ 0%nat) by (apply H; now left). cbn [bind]. fold (bcol basis r).
    destruct (IH (filter (fun x => negb (Nat.eqb x (bcol basis r))) cols)) as (cols' & E & Hc).
    { intros r' Hr'. apply H. now right. }
    exists cols'. split; [exact E|]. intros x. rewrite Hc, filter_In, negb_true_iff, Nat.eqb_neq. split.
    + intros [[A B] C]. split; [assumption|]. intros r' [<-|Hr']; [congruence|now apply C].
    + intros [A B]. split; [split; [assumption|]|].
      * intros ->. now apply (B r (or_introl eq_refl)).
      * intros r' Hr'. apply B. now right.
Qed.

Lemma from_artificial_remove_spec t rows :
  removal_inv O L p k c2r t rows [] ->
  match tab_from_artificial_remove (t_im t) (k_art k) (t_cols t) (remove_rows p rows) rows with
  | Ok t' => tab_inv L (non_artificial (remove_rows p rows)) (rhs_of (remove_rows p rows)) t' /\
             kind_ok (non_artificial (remove_rows p rows))
  | Panic | Fuel => bi_remove O = None /\ ~ ok_invert L (p_rows p - length rows)
  end.
Proof.
  intros V. pose proof (ri_tab _ _ _ _ _ _ _ _ V) as [I S].
  pose proof (removal_redundant t rows V) as Hred.
  pose proof (ri_inc _ _ _ _ _ _ _ _ V) as Inc. pose proof (ri_lt _ _ _ _ _ _ _ _ V) as Lt.
  pose proof (ri_art _ _ _ _ _ _ _ _ V) as Art. pose proof (ri_own _ _ _ _ _ _ _ _ V) as Own.
  cbn [map] in Inc, Lt, Art. rewrite app_nil_r in Inc, Lt. setoid_rewrite app_nil_r in Art.
  pose proof (ak_rows _ _ _ AK) as Er.
  assert (ND : NoDup rows) by apply Hred.
  assert (Srt : sorted_rows (p_rows p) rows) by (split; assumption).
  set (m := p_rows p) in *. set (K := kept m rows).
  assert (LK : length K = (m - length rows)%nat) by now apply kept_length.
  assert (Len : length (c_basis (t_im t)) = m) by (rewrite (ci_lbasis _ _ _ _ _ I); assumption).
  assert (Lenb : length (c_b (t_im t)) = m) by (rewrite (ci_lb _ _ _ _ _ I); assumption).
  assert (Ge : forall r, (r < m)%nat -> ~ In r rows ->
     (k_art k <= bcol (c_basis (t_im t)) r < k_cols k)%nat).
  { intros r Lr Nr. split.
    - destruct (le_lt_dec (k_art k) (bcol (c_basis (t_im t)) r)) as [|C]; [assumption|].
      apply (Art r Lr) in C. contradiction.
    - apply (ci_range _ _ _ _ _ I). now rewrite Er. }
  assert (HK : forall i, (i < length K)%nat -> (nth i K 0 < m)%nat /\ ~ In (nth i K 0%nat) rows).
  { intros i Li. apply kept_In. now apply nth_In. }
  (* column r of the basis matrix is a unit vector for a removed row *)
  set (B := bmat k (c_basis (t_im t))) in *.
  destruct (ci_rep _ _ _ _ _ I) as (N & Rp & HN). rewrite Er in Rp, HN. fold B in HN.
  assert (Bunit : forall i r, (i < m)%nat -> In r rows -> B i r = delta i r).
  { intros i r Li Hr. unfold B, bmat, kA. assert (Lr := Lt r Hr).
    assert (Ha : (bcol (c_basis (t_im t)) r < k_art k)%nat) by now apply (Art r Lr).
    destruct (ak_acol _ _ _ AK _ Ha) as [-> _]. rewrite (Own r Lr Ha). rewrite den_sbasis. apply delta_sym. }
  assert (Nunit : forall i r, (i < m)%nat -> In r rows -> N i r = delta i r).
  { intros i r Li Hr. assert (Lr := Lt r Hr). rewrite <- (proj1 HN i r Li Lr). unfold mmul.
    rewrite (sum_ext _ _ (fun l => N i l * delta l r)).
    - symmetry. now apply (sum_delta_r m r (fun l => N i l)).
    - intros l Ll. f_equal. now apply Bunit. }
  set (basis := map (fun j => (j - k_art k)%nat) (remove_indices (c_basis (t_im t)) rows)).
  assert (LRI : length (remove_indices (c_basis (t_im t)) rows) = length K).
  { rewrite remove_indices_length by (rewrite Len; assumption). rewrite Len. now rewrite LK. }
  assert (Bc0 : forall r, (r < length K)%nat ->
     bcol (remove_indices (c_basis (t_im t)) rows) r = bcol (c_basis (t_im t)) (nth r K 0%nat)).
  { intros r Lr. unfold bcol. rewrite nth_remove_indices; rewrite Len; [reflexivity|assumption]. }
  assert (Lbas : length basis = length K) by (unfold basis; rewrite map_length; assumption).
  assert (Bc : forall r, (r < length K)%nat -> bcol basis r = (bcol (c_basis (t_im t)) (nth r K 0%nat) - k_art k)%nat).
  { intros r Lr. rewrite <- Bc0 by assumption. unfold bcol, basis.
    rewrite (nth_indep _ 0%nat (0 - k_art k)%nat) by now rewrite map_length, LRI.
    apply (map_nth (fun j => (j - k_art k)%nat)). }
  assert (GeB : forall j, In j (remove_indices (c_basis (t_im t)) rows) -> (k_art k <= j)%nat).
  { intros j Hj. apply In_bcol in Hj. destruct Hj as (r & Lr & <-). rewrite LRI in Lr.
    rewrite Bc0 by assumption. destruct (HK r Lr). now apply Ge. }
  unfold tab_from_artificial_remove, carry_from_artificial_remove.
  destruct (filter_cols_spec (c_basis (t_im t)) rows (t_cols t)) as (cols & Ecols & Hcols).
  { intros r Hr. rewrite Len. now apply Lt. }
  rewrite Ecols. cbn [bind].
  assert (Hcols' : forall j, In j cols <-> In j (remove_indices (c_basis (t_im t)) rows)).
  { intros j. rewrite Hcols. split.
    - intros [A C]. apply S in A. apply In_bcol in A. destruct A as (r & Lr & <-). rewrite Len in Lr.
      assert (Nr : ~ In r rows) by (intros Hr; now apply (C r Hr)).
      assert (Hin : In r K) by now apply kept_In.
      destruct (In_nth _ _ 0%nat Hin) as (r' & Lr' & Er').
      apply In_bcol. exists r'. rewrite LRI. split; [assumption|]. rewrite Bc0 by assumption. now rewrite Er'.
    - intros H. apply In_bcol in H. destruct H as (r & Lr & <-). rewrite LRI in Lr.
      rewrite Bc0 by assumption. destruct (HK r Lr) as [L1 N1]. split.
      + apply S. apply nth_In. now rewrite Len.
      + intros r' Hr' E. apply (inverse_injective m k N (c_basis (t_im t))) in E; try assumption.
        * subst r'. contradiction.
        * now apply Lt. }
  rewrite mapM_unshift by (intros j Hj; apply GeB; now apply Hcols'). cbn [bind].
  rewrite mapM_unshift by assumption. cbn [bind]. fold basis.
  set (p' := remove_rows p rows).
  assert (Rows' : p_rows p' = length K) by (symmetry; assumption).
  assert (Kok' : kind_ok (non_artificial p')).
  { apply non_artificial_ok. intros j Lj. unfold p', remove_rows. cbn [p_rows p_col p_cols] in *.
    rewrite (pok_filter p Pok rows j Inc Hred Lj). fold m. rewrite <- LK.
    apply wfs_sremove; [assumption|]. now apply (pok_cols p Pok). }
  assert (Bm : meq (length K) (length K) (submat m rows B) (bmat (non_artificial p') basis)).
  { intros i r Li Lr. unfold submat. fold K. unfold B, bmat, kA, non_artificial. cbn [k_col].
    rewrite Bc by assumption. destruct (HK r Lr) as [L1 N1]. destruct (Ge _ L1 N1) as [G1 G2].
    assert (G3 : (bcol (c_basis (t_im t)) (nth r K 0) - k_art k < p_cols p)%nat)
      by (rewrite (ak_cols _ _ _ AK) in G2; lia).
    rewrite real_col by now apply Ge.
    unfold p', remove_rows. cbn [p_col]. rewrite (pok_filter p Pok rows _ Inc Hred G3).
    symmetry. apply (den_sremove m); try assumption.
    intros j' v Hin. apply (wfs_In_lt _ _ _ _ (pok_cols p Pok _ G3) Hin). }
  assert (Inv0 : is_inverse (length K) (submat m rows N) (submat m rows B)).
  { split; intros i r Li Lr; unfold mmul, submat; fold K;
      destruct (HK i Li) as [Li1 Ni1]; destruct (HK r Lr) as [Lr1 Nr1].
    - transitivity (sum m (fun l => N (nth i K 0%nat) l * B l (nth r K 0%nat))).
      + symmetry. apply (sum_kept m rows (fun l => N (nth i K 0%nat) l * B l (nth r K 0%nat))).
        intros l Ll Hl. rewrite Nunit by assumption. rewrite delta_diff by congruence. ring.
      + pose proof (proj1 HN _ _ Li1 Lr1) as E. unfold mmul in E. rewrite E.
        unfold delta. destruct (Nat.eqb_spec i r) as [->|Ne]; [now rewrite Nat.eqb_refl|].
        destruct (Nat.eqb_spec (nth i K 0%nat) (nth r K 0%nat)) as [E'|]; [|reflexivity].
        exfalso. apply Ne. now apply (proj1 (NoDup_nth K 0%nat) (kept_NoDup m rows)).
    - transitivity (sum m (fun l => B (nth i K 0%nat) l * N l (nth r K 0%nat))).
      + symmetry. apply (sum_kept m rows (fun l => B (nth i K 0%nat) l * N l (nth r K 0%nat))).
        intros l Ll Hl. rewrite Bunit by assumption. rewrite delta_diff by congruence. ring.
      + pose proof (proj2 HN _ _ Li1 Lr1) as E. unfold mmul in E. rewrite E.
        unfold delta. destruct (Nat.eqb_spec i r) as [->|Ne]; [now rewrite Nat.eqb_refl|].
        destruct (Nat.eqb_spec (nth i K 0%nat) (nth r K 0%nat)) as [E'|]; [|reflexivity].
        exfalso. apply Ne. now apply (proj1 (NoDup_nth K 0%nat) (kept_NoDup m rows)). }
  assert (Inv : is_inverse (length K) (submat m rows N) (bmat (non_artificial p') basis)).
  { exact (inverse_ext _ _ _ _ _ (meq_refl _ _ _) Bm Inv0). }
  assert (Range' : forall r, (r < length K)%nat -> (bcol basis r < p_cols p)%nat).
  { intros r Lr. rewrite Bc by assumption. destruct (HK r Lr) as [L1 N1]. destruct (Ge _ L1 N1) as [G1 G2].
    rewrite (ak_cols _ _ _ AK) in G2. lia. }
  set (b' := remove_indices (c_b (t_im t)) rows).
  assert (Lb' : length b' = length K).
  { unfold b'. rewrite remove_indices_length by (rewrite Lenb; assumption). rewrite Lenb. now rewrite LK. }
  assert (Vb : forall r, (r < length K)%nat -> nthq b' r = nthq (c_b (t_im t)) (nth r K 0%nat)).
  { intros r Lr. unfold nthq, b'. rewrite nth_remove_indices; rewrite Lenb; [reflexivity|assumption]. }
  assert (Core : forall i0, rep L (length K) i0 (submat m rows N) ->
     match (let* mpi := create_minus_pi O i0 (p_rows p') (p_cost p') basis in
            let* mobj := create_minus_obj (p_rows p') (p_cost p') basis b' in
            Ok (mk_carry mobj mpi b' basis i0)) with
     | Ok c => carry_inv L (non_artificial p') (rhs_of p') c /\ c_basis c = basis
     | _ => False
     end).
  { intros i0 R0. rewrite Rows'.
    destruct (minus_pi_spec O L (length K) i0 (submat m rows N) (p_cost p') basis R0 Lbas) as (mpi & Em & _).
    rewrite Em. cbn [bind]. rewrite (minus_obj_spec (length K)) by assumption. cbn [bind].
    split; [|reflexivity].
    apply carry_from_inverse with (submat m rows N);
      try change (k_rows (non_artificial p')) with (p_rows p');
      try change (k_cols (non_artificial p')) with (p_cols p); rewrite ?Rows'; try assumption.
    - intros i Li.
      transitivity (sum m (fun r => B (nth i K 0%nat) r * nthq (c_b (t_im t)) r)).
      + destruct (HK i Li) as [Li1 Ni1].
        rewrite (sum_kept m rows).
        * fold K. apply sum_ext. intros r Lr. rewrite Vb by assumption. f_equal.
          symmetry. now apply Bm.
        * intros l Ll Hl. rewrite Bunit by assumption. rewrite delta_diff by congruence. ring.
      + destruct (HK i Li) as [Li1 Ni1]. pose proof (ci_feas _ _ _ _ _ I (nth i K 0%nat)) as F.
        rewrite Er in F. unfold B. rewrite F by assumption. unfold rhs_of, p', remove_rows. cbn [p_rhs].
        unfold nthq. rewrite nth_remove_indices; rewrite (pok_len p Pok); [reflexivity|assumption].
    - intros r Lr. rewrite Vb by assumption. apply (ci_nonneg _ _ _ _ _ I). rewrite Er. now apply HK.
    - now apply minus_obj_spec. }
  assert (Fin : forall c, carry_inv L (non_artificial p') (rhs_of p') c /\ c_basis c = basis ->
     tab_inv L (non_artificial p') (rhs_of p') (mk_tab c (map (fun j => (j - k_art k)%nat) cols)) /\
     kind_ok (non_artificial p')).
  { intros c [HC Eb]. split; [|assumption]. split; [exact HC|]. cbn [t_im t_cols]. intros j. rewrite Eb.
    unfold basis. rewrite !in_map_iff. split; intros (x & Ex & Hx); exists x; split; try assumption; now apply Hcols'. }
  fold m. rewrite <- LK.
  destruct (bi_remove O) as [remove|] eqn:Erm.
  - rewrite LK in Inv.
    destruct (law_remove O L remove m (c_bi (t_im t)) N _ rows Erm Rp Srt Inv) as (i0 & Ei & Ri).
    rewrite Ei. cbn [bind]. rewrite <- LK in Ri. specialize (Core i0 Ri).
    match type of Core with match ?e with _ => _ end => destruct e as [c| |] end; cbn [bind];
      [now apply Fin|contradiction|contradiction].
  - rewrite basis_columns_of_spec.
    2:{ intros r Lr. rewrite Lbas in Lr. cbn [non_artificial k_cols]. now apply Range'. }
    cbn [bind].
    set (bcols := map (k_col (non_artificial p')) basis).
    assert (Lc : length bcols = length K) by (unfold bcols; now rewrite map_length).
    assert (Wc : Forall (wfs (length K)) bcols).
    { apply Forall_forall. intros c Hc. apply in_map_iff in Hc. destruct Hc as (j & <- & Hj).
      apply In_bcol in Hj. destruct Hj as (r & Lr & <-). rewrite Lbas in Lr. rewrite <- Rows'.
      apply (proj1 Kok'). cbn [non_artificial k_cols]. now apply Range'. }
    assert (Ic : is_inverse (length K) (submat m rows N) (cols_mat bcols)).
    { refine (inverse_ext _ _ _ _ _ (meq_refl _ _ _) _ Inv). intros i r Li Lr. symmetry.
      apply cols_mat_map. now rewrite Lbas. }
    destruct (bi_invert O bcols) as [i0| |] eqn:Ei; cbn [bind].
    + pose proof (law_invert O L (length K) bcols i0 (submat m rows N) Lc Wc Ic Ei) as Ri.
      specialize (Core i0 Ri).
      match type of Core with match ?e with _ => _ end => destruct e as [c| |] end; cbn [bind];
        [now apply Fin|contradiction|contradiction].
    + split; [reflexivity|]. intros Hok. destruct (law_invert_total O L (length K) bcols _ Hok Lc Wc Ic) as [b0 Eb0]. congruence.
    + split; [reflexivity|]. intros Hok. destruct (law_invert_total O L (length K) bcols _ Hok Lc Wc Ic) as [b0 Eb0]. congruence.
Qed.

End Finish.
