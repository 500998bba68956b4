(** * With assertions: phase one, its end, and the whole solver are those of the release build *)
From Verif Require Export DebugRule SolveP Agree.

Lemma increasing_strict : forall l lo, increasing_from lo l -> is_strict l = true.
Proof.
  unfold is_strict. induction l as [|x [|y t] IH]; intros lo H; try reflexivity. destruct H as [_ H].
  change (Nat.ltb x y && windows Nat.ltb (y :: t) = true). rewrite (IH (S x) H), Bool.andb_true_r. apply Nat.ltb_lt. destruct H. lia.
Qed.
Lemma increasing_sorted l lo : increasing_from lo l -> is_sorted l = true.
Proof. intros H. now apply strict_sorted, (increasing_strict l lo). Qed.
Lemma set_size_NoDup l : NoDup l -> set_size l = length l.
Proof. intros H. unfold set_size. now rewrite nodup_fixed_point. Qed.
Lemma NoDup_bound l m : NoDup l -> (forall x, In x l -> (x < m)%nat) -> (length l <= m)%nat.
Proof.
  intros ND H. rewrite <- (seq_length m 0). apply NoDup_incl_length; [assumption|]. intros x Hx. apply in_seq.
  specialize (H x Hx). lia.
Qed.

Section Phase.
Variable O : BIOps.
Variable L : BILaws O.
Variable D : DOps O.
Variable DL : DLaws L D.
Variable R : Rule O.
Variable RL : RuleLaws L R.
Variable RD : DRule O R.
Variable RDL : RuleDLaws L D DL R RL RD.
Local Notation ok := (d_ok L D DL).
Local Notation okinv := (d_okinv L D DL).

(** ** Removing artificial variables *)
Section Art.
Variable p : provider.
Variable k : kind.
Variable c2r : nat -> nat.
Hypothesis Pok : provider_ok p.
Hypothesis AK : art_kind p k c2r.
Hypothesis Kok : kind_ok k.
Hypothesis Hok : ok (p_rows p).
Local Notation m := (p_rows p).
Local Notation rhs := (rhs_of p).

Lemma removal_step_same t rows i j todo :
  removal_inv O L p k c2r t rows ((i, j) :: todo) ->
  removal_step_d O D k (t, rows) (i, j) = removal_step O k (t, rows) (i, j).
Proof.
  intros V. pose proof (removal_step_spec O L p k c2r AK Kok t rows i j todo V) as Spec.
  pose proof (ri_tab _ _ _ _ _ _ _ _ V) as HI. pose proof HI as [I S].
  pose proof (ak_rows _ _ _ AK) as Er. assert (Hok' : ok (k_rows k)) by now rewrite Er.
  assert (Hi : In i (rows ++ map fst ((i, j) :: todo))) by (apply in_or_app; right; now left).
  assert (Li : (i < m)%nat) by now apply (ri_lt _ _ _ _ _ _ _ _ V).
  assert (Ej : bcol (c_basis (t_im t)) i = j) by (apply (ri_todo _ _ _ _ _ _ _ _ V); now left).
  assert (Ha : (bcol (c_basis (t_im t)) i < k_art k)%nat) by now apply (ri_art _ _ _ _ _ _ _ _ V).
  pose proof (artificial_zero O L p k c2r AK t i HI (ri_obj _ _ _ _ _ _ _ _ V) Li Ha) as Z.
  assert (Lj : (j < k_cols k)%nat) by (rewrite <- Ej; destruct Kok; lia).
  assert (Lba : length (c_basis (t_im t)) = m) by (rewrite (ci_lbasis _ _ _ _ _ I); assumption).
  assert (Bj : in_basis t j = true).
  { apply memb_In, S. rewrite <- Ej. apply nth_In. lia. }
  revert Spec. unfold removal_step_d, removal_step.
  rewrite in_basis_same by assumption. cbn [bind]. rewrite asserted by assumption.
  unfold variable_value_d. rewrite bind_assert by now apply Nat.ltb_lt.
  rewrite <- Ej. rewrite (variable_value_spec O L p k c2r AK t i HI Li). cbn [bind]. rewrite Z.
  assert (Same : findM (removal_ok_d O D k t i 0) (range (k_art k) (k_cols k)) =
     findM (removal_ok O k t i 0) (range (k_art k) (k_cols k))).
  { apply findM_ext. intros q Hq. apply In_range in Hq. unfold removal_ok_d, removal_ok.
    rewrite in_basis_same by lia. cbn [bind]. destruct (in_basis t q); [reflexivity|].
    rewrite relative_cost_same; [|assumption|lia]. cbn [bind].
    rewrite (generate_element_same O L D DL k rhs); try assumption; [reflexivity|rewrite Er; lia|lia]. }
  rewrite Same. clear Same.
  destruct (ci_rep _ _ _ _ _ I) as (N & Rp & HN). rewrite Er in Rp, HN.
  destruct (findM_spec (removal_ok O k t i 0)
     (fun q => ~ In q (t_cols t) /\ sum m (fun r => N i r * kA k r q) <> 0) (range (k_art k) (k_cols k)))
     as (found & Ef & Hf).
  { intros q Hq. apply In_range in Hq. unfold removal_ok.
    destruct (in_basis t q) eqn:Eb.
    - exists false. split; [reflexivity|]. unfold in_basis in Eb. apply memb_In in Eb. intuition discriminate.
    - unfold in_basis in Eb. apply memb_false in Eb. cbn [qzero]. change (qzero 0) with true. cbv iota.
      destruct (element_spec O L p k c2r AK Kok t i q HI Li (proj2 Hq)) as (N' & e & _ & HN' & Ee & He).
      rewrite Ee. cbn [bind].
      assert (EN : sum m (fun r => N' i r * kA k r q) = sum m (fun r => N i r * kA k r q)).
      { apply sum_ext. intros r Lr. f_equal. now apply (inverse_unique m N' N (bmat k (c_basis (t_im t)))). }
      rewrite EN in He. eexists. split; [reflexivity|]. destruct e as [v|].
      + rewrite <- He. destruct (qzero v) eqn:Ev; qb; cbn [negb]; intuition (try discriminate; try contradiction).
      + intuition (try discriminate; try contradiction). }
  rewrite Ef. cbn [bind]. destruct found as [q|].
  - destruct Hf as (Hq & Nq & Nz). apply In_range in Hq.
    rewrite relative_cost_same; [|assumption|lia]. cbn [bind].
    rewrite (generate_column_same O L D DL k rhs) by (assumption || lia).
    destruct (column_spec O L k rhs t q Kok HI (proj2 Hq)) as (cc & N' & Ec & Wc & Rp' & HN' & Vc & HB).
    rewrite Ec. cbn [bind].
    assert (Nzc : den (cci_col O cc) i <> 0).
    { rewrite Vc by now rewrite Er. rewrite Er in *. intros C. apply Nz. rewrite <- C. apply sum_ext. intros r Lr. f_equal.
      now apply (inverse_unique m N N' (bmat k (c_basis (t_im t)))). }
    rewrite (bring_into_basis_same O L D DL k rhs); try assumption; [|lia|now rewrite Er].
    destruct (change_spec O L k rhs t i q cc Kok HI (proj2 Hq) Ec) as [Part _];
      rewrite ?Er in *; try assumption.
    { unfold keeps_nonneg. rewrite Z. split.
      - unfold Qcdiv. rewrite Qcmult_0_l. apply Qcle_refl.
      - intros r Lr _. unfold Qcdiv. rewrite Qcmult_0_l, Qcmult_0_r. unfold Qcminus.
        rewrite Qcplus_0_r. apply (ci_nonneg _ _ _ _ _ I). now rewrite Er. }
    destruct (bring_into_basis k t q i cc (relative_cost k t q)) as [[t' info]| |] eqn:Eb; cbn [bind fst]; try reflexivity.
    destruct (Part t' info eq_refl) as (HI' & _ & Ebas & _). intros _.
    rewrite in_basis_same by now rewrite Ej. cbn [bind].
    assert (Out : in_basis t' (bcol (c_basis (t_im t)) i) = false).
    { apply memb_false. intros C. apply (proj2 HI'), In_bcol in C. destruct C as (r & Lr & Cr).
      rewrite Ebas in Lr, Cr. rewrite upd_length in Lr. unfold bcol in Cr at 1. rewrite upd_nth in Cr by lia.
      destruct (Nat.eqb_spec r i) as [->|Ne]; [lia|]. apply Ne.
      apply (inverse_injective m k N (c_basis (t_im t))); try assumption; lia. }
    rewrite Out. rewrite asserted by reflexivity. cbn [bind fst].
    rewrite (bfs_state_ok O L D DL k rhs); [reflexivity|assumption..|now rewrite Er].
  - intros _. cbn [bind fst]. now rewrite (bfs_state_ok O L D DL k rhs).
Qed.

Lemma removal_fold_same todo : forall t rows, removal_inv O L p k c2r t rows todo ->
  foldM (removal_step_d O D k) todo (t, rows) = foldM (removal_step O k) todo (t, rows).
Proof.
  induction todo as [|[i j] todo IH]; intros t rows V; cbn [foldM]; [reflexivity|].
  rewrite (removal_step_same t rows i j todo V).
  pose proof (removal_step_spec O L p k c2r AK Kok t rows i j todo V) as S.
  destruct (removal_step O k (t, rows) (i, j)) as [[t' rows']| |]; cbn [bind]; [now apply IH|reflexivity..].
Qed.

Lemma remove_artificials_same t :
  tab_inv L k rhs t -> objective_value t = 0 -> own_row p k c2r (c_basis (t_im t)) ->
  remove_artificials_d O D k t = remove_artificials O k t.
Proof.
  intros HI HO HW. unfold remove_artificials_d, remove_artificials.
  destruct (artificial_columns_spec O L p k c2r AK t HI) as (l & E & Inc & Hl). rewrite E. cbn [bind].
  rewrite asserted by now apply (increasing_sorted _ 0).
  assert (V : removal_inv O L p k c2r t [] l).
  { split; cbn [app]; try assumption.
    - intros i Li. rewrite in_map_iff. split.
      + intros H. exists (i, bcol (c_basis (t_im t)) i). split; [reflexivity|]. now apply Hl.
      + intros ([i' j] & Ei & H). cbn [fst] in Ei. subst i'. apply Hl in H. destruct H as (_ & -> & H). assumption.
    - intros i H. apply in_map_iff in H. destruct H as ([i' j] & Ei & H). cbn [fst] in Ei. subst i'.
      apply Hl in H. apply H.
    - intros i j H. apply Hl in H. destruct H as (_ & -> & _). reflexivity.
    - intros i []. }
  rewrite (removal_fold_same l t [] V). pose proof (removal_fold O L p k c2r AK Kok l t [] V) as F.
  destruct (foldM (removal_step O k) l (t, [])) as [[t' rows]| |]; cbn [bind snd]; try reflexivity.
  rewrite asserted; [reflexivity|]. apply (increasing_sorted _ 0). pose proof (ri_inc _ _ _ _ _ _ _ _ F) as H.
  cbn [map] in H. now rewrite app_nil_r in H.
Qed.

Lemma phase_one_same fuel t :
  tab_inv L k rhs t -> own_row p k c2r (c_basis (t_im t)) ->
  phase_one_d O D R RD fuel k t = phase_one O R fuel k t.
Proof.
  intros HI HW. unfold phase_one_d, phase_one.
  assert (Hok' : ok (k_rows k)) by now rewrite (ak_rows _ _ _ AK).
  destruct (rd_new L D DL R RL RD RDL k rhs t Kok HI Hok') as [En Hd].
  destruct (rl_new L R RL k rhs t Kok HI) as (s & Es & Hs). rewrite En, Es. cbn [bind].
  rewrite (simplex_loop_same O L D DL R RL RD RDL k rhs) by auto.
  pose proof (loop_spec O L R RL k rhs (own_row p k c2r) Kok
     (fun basis r q Hq => own_row_upd p k c2r basis r q (proj1 Hq)) fuel t s HI Hs HW) as LS.
  destruct (simplex_loop O R fuel k t s) as [[t'|t']| |]; cbn [bind]; try reflexivity.
  destruct LS as (HI' & HP & HW' & _). destruct (qzero (objective_value t')) eqn:Z; qb; [|reflexivity].
  destruct (has_artificial k t'); [|reflexivity]. now rewrite remove_artificials_same.
Qed.

(** ** The first tableau of phase two *)
Lemma create_minus_pi_same n b N cost basis : ok n -> rep L n b N -> length basis = n ->
  create_minus_pi_d O D b n cost basis = create_minus_pi O b n cost basis.
Proof.
  intros Hn Rp Lb. unfold create_minus_pi_d, create_minus_pi, unit_columns.
  rewrite (dl_m L D DL n b N Rp). rewrite !asserted by (now apply Nat.eqb_eq).
  apply bind_same; [|reflexivity]. apply mapM_same. intros j Hj. apply in_seq in Hj.
  rewrite (dl_left L D DL n b N) by (try assumption; apply sbasis_wfs; lia). reflexivity.
Qed.

Lemma carry_new_same mobj mpi b basis i N n : rep L n i N -> length mpi = n -> length b = n -> length basis = n ->
  carry_new_d O D mobj mpi b basis i = Ok (mk_carry mobj mpi b basis i).
Proof.
  intros Rp L1 L2 L3. unfold carry_new_d. rewrite (dl_m L D DL n i N Rp). now rewrite !asserted by now apply Nat.eqb_eq.
Qed.

Lemma from_artificial_same t : removal_inv O L p k c2r t [] [] ->
  tab_from_artificial_d O D (t_im t) (k_art k) (t_cols t) p = tab_from_artificial (t_im t) (k_art k) (t_cols t) p.
Proof.
  intros V. pose proof (ri_tab _ _ _ _ _ _ _ _ V) as [I S]. pose proof (ak_rows _ _ _ AK) as Er.
  assert (Lb : length (c_b (t_im t)) = m) by (rewrite (ci_lb _ _ _ _ _ I); assumption).
  assert (Len : length (c_basis (t_im t)) = m) by (rewrite (ci_lbasis _ _ _ _ _ I); assumption).
  destruct (ci_rep _ _ _ _ _ I) as (N & Rp & _). rewrite Er in Rp.
  assert (GeB : forall j, In j (c_basis (t_im t)) -> (k_art k <= j)%nat).
  { intros j Hj. apply In_bcol in Hj. destruct Hj as (r & Lr & <-). rewrite Len in Lr.
    destruct (le_lt_dec (k_art k) (bcol (c_basis (t_im t)) r)) as [|C]; [assumption|].
    apply (ri_art _ _ _ _ _ _ _ _ V r Lr) in C. destruct C. }
  unfold tab_from_artificial_d, tab_from_artificial. apply bind_same; [|reflexivity].
  unfold carry_from_artificial_d, carry_from_artificial. rewrite asserted by now apply Nat.eqb_eq.
  rewrite (mapM_unshift _ _ GeB). cbn [bind].
  set (basis := map (fun j => (j - k_art k)%nat) (c_basis (t_im t))).
  assert (Lbas : length basis = m) by (unfold basis; rewrite map_length; assumption).
  rewrite (create_minus_pi_same m _ N) by assumption.
  destruct (minus_pi_spec O L m (c_bi (t_im t)) N (p_cost p) basis Rp Lbas) as (mpi & Em & Lm & _).
  rewrite Em. cbn [bind]. rewrite (minus_obj_spec m) by assumption. cbn [bind].
  now rewrite (carry_new_same _ _ _ _ _ N m).
Qed.

Lemma filter_cols_same (basis : list nat) : forall rm cols,
  NoDup rm -> (forall r, In r rm -> (r < length basis)%nat) ->
  (forall r r', In r rm -> In r' rm -> bcol basis r = bcol basis r' -> r = r') ->
  (forall r, In r rm -> In (bcol basis r) cols) ->
  foldM (fun cols row => let* j := index basis row in
                  let* _ := assert (memb j cols) in
                  Ok (filter (fun x => negb (Nat.eqb x j)) cols)) rm cols =
  foldM (fun cols row => let* j := index basis row in
                  Ok (filter (fun x => negb (Nat.eqb x j)) cols)) rm cols.
Proof using.
  induction rm as [|r rm IH]; intros cols ND Lt Inj Hin; cbn [foldM]; [reflexivity|].
  rewrite (index_Ok _ _ 0%nat) by (apply Lt; now left). cbn [bind]. fold (bcol basis r).
  rewrite asserted by (apply memb_In, Hin; now left). cbn [bind].
  inversion ND as [|? ? Nr ND']; subst. apply IH; try assumption.
  - intros r' Hr'. apply Lt. now right.
  - intros r1 r2 H1 H2. apply Inj; now right.
  - intros r' Hr'. apply filter_In. split; [apply Hin; now right|]. apply negb_true_iff, Nat.eqb_neq. intros C.
    apply Nr. rewrite <- (Inj r' r); [assumption|now right|now left|assumption].
Qed.

Lemma from_artificial_remove_same t rows : rows <> [] ->
  removal_inv O L p k c2r t rows [] ->
  ok (m - length rows) -> (d_remove D = None -> okinv (m - length rows)) ->
  tab_from_artificial_remove_d O D (t_im t) (k_art k) (t_cols t) (remove_rows p rows) rows =
  tab_from_artificial_remove (t_im t) (k_art k) (t_cols t) (remove_rows p rows) rows.
Proof.
  intros Ne V Ok1 Ok2. pose proof (from_artificial_remove_spec O L p k c2r Pok AK t rows V) as FS.
  pose proof (ri_tab _ _ _ _ _ _ _ _ V) as [I S]. pose proof (ak_rows _ _ _ AK) as Er.
  pose proof (ri_inc _ _ _ _ _ _ _ _ V) as Inc. pose proof (ri_lt _ _ _ _ _ _ _ _ V) as Lt.
  pose proof (ri_art _ _ _ _ _ _ _ _ V) as Art. cbn [map] in Inc, Lt, Art. rewrite app_nil_r in Inc, Lt. setoid_rewrite app_nil_r in Art.
  pose proof (increasing_NoDup _ _ Inc) as ND.
  assert (Srt : sorted_rows m rows) by (split; assumption).
  assert (Lm : (length rows < m)%nat) by (pose proof (dl_pos L D DL _ Ok1); lia).
  assert (Lb : length (c_b (t_im t)) = m) by (rewrite (ci_lb _ _ _ _ _ I); assumption).
  assert (Len : length (c_basis (t_im t)) = m) by (rewrite (ci_lbasis _ _ _ _ _ I); assumption).
  destruct (ci_rep _ _ _ _ _ I) as (N & Rp & HN). rewrite Er in Rp, HN.
  assert (DR : match d_remove D, bi_remove O with None, None => True | Some _, Some _ => True | _, _ => False end).
  { pose proof (dl_remove L D DL) as H. destruct (d_remove D), (bi_remove O); tauto. }
  set (p' := remove_rows p rows) in *.
  assert (Rows' : p_rows p' = (m - length rows)%nat) by reflexivity.
  destruct (tab_from_artificial_remove (t_im t) (k_art k) (t_cols t) p' rows) as [t'| |] eqn:E.
  2,3: exfalso; destruct FS as [F1 F2]; rewrite F1 in DR; destruct (d_remove D) eqn:Ed; [contradiction|];
       apply F2, (dl_invert_ok L D DL), Ok2; reflexivity.
  destruct FS as [[I' S'] K'].
  pose proof (ci_lb _ _ _ _ _ I') as Lb'. pose proof (ci_lbasis _ _ _ _ _ I') as Len'. pose proof (ci_lmpi _ _ _ _ _ I') as Lmpi'.
  pose proof (ci_range _ _ _ _ _ I') as Rng'. destruct (ci_rep _ _ _ _ _ I') as (N' & Rp' & HN').
  change (k_rows (non_artificial p')) with (p_rows p') in *. change (k_cols (non_artificial p')) with (p_cols p') in *.
  rewrite Rows' in *. rewrite <- E. revert E.
  unfold tab_from_artificial_remove_d, tab_from_artificial_remove.
  assert (Gone : mapM (fun row => index (c_basis (t_im t)) row) rows = Ok (map (bcol (c_basis (t_im t))) rows)).
  { clear - Lt Len. induction rows as [|r rows IH]; cbn [mapM map]; [reflexivity|].
    rewrite (index_Ok _ _ 0%nat) by (rewrite Len; apply Lt; now left). cbn [bind].
    rewrite IH by (intros; apply Lt; now right). reflexivity. }
  rewrite Gone. cbn [bind].
  rewrite asserted.
  2:{ apply forallb_forall. intros v Hv. apply S, In_bcol in Hv. destruct Hv as (r & Lr & <-). apply Bool.orb_true_iff.
      destruct (in_dec Nat.eq_dec r rows) as [Hr|Hr].
      - right. apply memb_In. now apply in_map.
      - left. apply Nat.leb_le. destruct (le_lt_dec (k_art k) (bcol (c_basis (t_im t)) r)) as [|C]; [assumption|].
        apply Art in C; [contradiction|now rewrite <- Len]. }
  rewrite filter_cols_same; try assumption.
  2:{ intros r Hr. rewrite Len. now apply Lt. }
  2:{ intros r r' Hr Hr' Eb. apply (inverse_injective m k N (c_basis (t_im t))); try assumption; now apply Lt. }
  2:{ intros r Hr. apply S. apply nth_In. rewrite Len. now apply Lt. }
  intros E. apply bind_ok in E. destruct E as (cols & Ec & E). rewrite Ec. cbn [bind].
  apply bind_ok in E. destruct E as (cols' & Ec' & E). rewrite Ec'. cbn [bind].
  apply bind_same; [|reflexivity]. apply bind_ok in E. destruct E as (c' & Ecar & E). inversion E; subst t'; clear E.
  cbn [t_im t_cols] in *. revert Ecar.
  unfold carry_from_artificial_remove_d, carry_from_artificial_remove.
  rewrite asserted by (apply Nat.eqb_eq; rewrite Len, Rows'; lia).
  assert (LRI : length (remove_indices (c_basis (t_im t)) rows) = (m - length rows)%nat).
  { rewrite remove_indices_length by (rewrite Len; assumption). now rewrite Len. }
  assert (Left : (match d_remove D with
             | None => Ok tt
             | Some _ => assert (Nat.eqb (length (remove_indices (c_basis (t_im t)) rows)) (p_rows p'))
             end) = Ok tt).
  { destruct (d_remove D); [|reflexivity]. rewrite LRI, Rows', Nat.eqb_refl. reflexivity. }
  cbv zeta. rewrite Left. cbn [bind]. intros Ecar.
  apply bind_ok in Ecar. destruct Ecar as (basis & Ebas & Ecar). rewrite Ebas. cbn [bind].
  apply bind_ok in Ecar. destruct Ecar as (i & Ei & Ecar). rewrite Ei. cbn [bind].
  apply bind_ok in Ecar. destruct Ecar as (mpi & Empi & Ecar). rewrite Empi. cbn [bind].
  apply bind_ok in Ecar. destruct Ecar as (mobj & Emobj & Ecar). rewrite Emobj. cbn [bind].
  inversion Ecar; subst c'; clear Ecar. cbn [c_b c_mpi c_basis c_bi] in *.
  assert (Ei' : (match d_remove D with
            | None => let* cols := basis_columns_d (non_artificial p') basis in d_invert D cols
            | Some remove => remove (c_bi (t_im t)) rows
            end) = Ok i).
  { rewrite <- Ei. pose proof (dl_remove L D DL) as H. destruct (d_remove D) as [f|] eqn:Ed, (bi_remove O) as [g|]; try contradiction.
    - now apply (H m (c_bi (t_im t)) N).
    - assert (Ecols : basis_columns_of (non_artificial p') basis = Ok (map (k_col (non_artificial p')) basis)).
      { apply basis_columns_of_spec. rewrite Len'. exact Rng'. }
      assert (Wcols : Forall (wfs (m - length rows)) (map (k_col (non_artificial p')) basis)).
      { apply Forall_forall. intros x Hx. apply in_map_iff in Hx. destruct Hx as (j & <- & Hj).
        apply In_bcol in Hj. destruct Hj as (r & Lr & <-). rewrite <- Rows'. apply (proj1 K'). apply Rng'. now rewrite <- Len'. }
      unfold basis_columns_d. rewrite Ecols. cbn [bind]. rewrite (slices_ok (m - length rows)) by assumption. cbn [bind].
      apply (dl_invert L D DL (m - length rows) N'); try assumption; [now apply Ok2|now rewrite map_length|].
      refine (inverse_ext _ _ _ _ _ (meq_refl _ _ _) _ HN'). intros a r La Lr. symmetry. apply cols_mat_map. now rewrite Len'. }
  rewrite Ei'. cbn [bind]. rewrite Rows' in *. rewrite (create_minus_pi_same (m - length rows) i N') by assumption.
  rewrite Empi. cbn [bind]. unfold dense_remove. rewrite !asserted.
  - cbn [bind]. rewrite Emobj. cbn [bind]. now rewrite (carry_new_same _ _ _ _ _ N' (m - length rows)).
  - apply below_In. intros x Hx. rewrite Lb. now apply Lt.
  - apply Nat.eqb_eq. now apply set_size_NoDup.
  - now apply (increasing_sorted _ 0).
  - apply Nat.leb_le. rewrite Lb. lia.
Qed.

End Art.
End Phase.
