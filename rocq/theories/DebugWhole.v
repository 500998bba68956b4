(** * With assertions: the solver from start to end *)
From Verif Require Export DebugPhase.

Lemma compl_increasing c : forall r real, increasing_from r (compl c r real).
Proof.
  assert (W : forall l lo lo', (lo' <= lo)%nat -> increasing_from lo l -> increasing_from lo' l).
  { intros [|x l] lo lo' Le H; [exact I|]. destruct H. split; [lia|assumption]. }
  induction c as [|c IH]; intros r real; cbn [compl]; [exact I|]. destruct real as [|[rr j] real].
  - split; [lia|]. apply IH.
  - destruct (Nat.eqb rr r); [apply (W _ (S r)); [lia|apply IH]|]. split; [lia|]. apply IH.
Qed.
Lemma compl_apart c : forall r real x, increasing_from r (map fst real) -> In x (compl c r real) -> ~ In x (map fst real).
Proof.
  induction c as [|c IH]; intros r real x Inc H; cbn [compl] in H; [contradiction|]. destruct real as [|[rr j] real]; [easy|].
  cbn [map fst] in *. destruct Inc as [I1 I2]. destruct (Nat.eqb_spec rr r) as [->|Ne].
  - intros [->|C]; [apply compl_ge in H; lia|]. now apply (IH (S r) real x).
  - destruct H as [->|H].
    + intros [C|C]; [congruence|]. apply (increasing_ge (S rr)) in C; [lia|assumption].
    + apply (IH (S r) ((rr, j) :: real) x); [|exact H]. cbn [map fst]. split; [lia|assumption].
Qed.
Lemma NoDup_apart (a b : list nat) : NoDup a -> NoDup b -> (forall x, In x a -> ~ In x b) -> NoDup (a ++ b).
Proof.
  induction a as [|x a IH]; intros Na Nb H; [exact Nb|]. apply NoDup_cons_iff in Na. destruct Na as [N1 N2].
  cbn [app]. constructor.
  - intros C. apply in_app_or in C. destruct C as [C|C]; [contradiction|]. apply (H x); [now left|assumption].
  - apply IH; try assumption. intros y Hy. apply H. now right.
Qed.

Section Whole.
Variable O : BIOps.
Variable L : BILaws O.
Variable D : DOps O.
Variable DL : DLaws L D.
Variable R : Rule O.
Variable RL : RuleLaws L R.
Variable RD : DRule O R.
Variable RDL : RuleDLaws L D DL R RL RD.
Local Notation ok := (d_ok L D DL).
Local Notation okinv := (d_okinv L D DL).

Lemma new_fully_same p : provider_ok p -> ok (p_rows p) -> new_fully_d O D p = new_fully O p.
Proof.
  intros Pok Hok. unfold new_fully_d, new_fully, create_fully_d, create_fully, dense_constant, dense_new.
  pose proof (dl_pos L D DL _ Hok) as Pos. rewrite (pok_len p Pok).
  rewrite bind_assert by (apply negb_true_iff, Nat.eqb_neq; lia). cbn [bind]. rewrite Nat.eqb_refl. cbn [assert bind].
  now rewrite (dl_identity L D DL).
Qed.

Lemma new_partially_same p real : provider_ok p -> ok (p_rows p) ->
  increasing_from 0 (map fst real) ->
  (forall r j, In (r, j) real -> (r < p_rows p)%nat /\ (j < p_cols p)%nat /\ p_col p j = sbasis r) ->
  new_partially_d O D p real = new_partially O p real.
Proof.
  intros Pok Hok Hi Hreal. unfold new_partially_d, new_partially. set (m := p_rows p) in *.
  assert (Hlt : forall x, In x (map fst real) -> (x < 0 + m)%nat).
  { intros x Hx. apply in_map_iff in Hx. destruct Hx as ([r j] & <- & H). now apply Hreal in H. }
  pose proof (compl_length m 0 real Hi Hlt) as Hlen.
  rewrite asserted by now apply (increasing_sorted _ 0).
  destruct (Nat.ltb_spec m (length real)); [reflexivity|].
  replace (m - length real)%nat with (length (compl m 0 real)) by lia.
  pose proof (artificial_rows_compl m 0 0 real Hi) as Ea. cbn [Nat.add] in Ea. rewrite Ea.
  set (arts := compl m 0 real) in *.
  assert (Harts : forall x, In x arts -> (x < m)%nat) by (intros x Hx; apply compl_ge in Hx; lia).
  assert (Apart : forall x, In x arts -> ~ In x (map fst real)) by (intros x; now apply compl_apart).
  rewrite !asserted.
  2:{ apply (increasing_sorted _ 0). apply compl_increasing. }
  2:{ now apply below_In. }
  2:{ apply forallb_forall. intros x Hx. apply negb_true_iff, memb_false. now apply Apart. }
  apply bind_same; [reflexivity|]. intros basis _. apply bind_same; [|reflexivity].
  unfold create_partially_d, create_partially. rewrite (pok_len p Pok). fold m.
  rewrite !asserted.
  2:{ apply Nat.eqb_eq. rewrite set_size_NoDup.
      - unfold keys. rewrite app_length, map_length. lia.
      - unfold keys. assert (ND1 : NoDup arts) by apply compl_NoDup. pose proof (increasing_NoDup _ _ Hi) as ND2.
        now apply NoDup_apart. }
  2:{ apply below_In. intros x Hx. apply in_app_or in Hx. destruct Hx as [Hx|Hx]; [now apply Harts|now apply Hlt in Hx]. }
  2:{ apply Nat.eqb_eq. lia. }
  apply bind_same; [reflexivity|]. intros obj _.
  destruct (art_mpi_spec m 0 real) as (A1 & _ & _). cbv zeta in A1. fold arts in A1.
  unfold dense_new. rewrite A1, (pok_len p Pok). fold m. rewrite Nat.eqb_refl. cbn [assert bind].
  now rewrite (dl_identity L D DL).
Qed.

Lemma from_basis_same p basis : provider_ok p -> okinv (p_rows p) -> ok (p_rows p) ->
  length basis = p_rows p -> (forall j, In j basis -> (j < p_cols p)%nat) ->
  (exists N, is_inverse (p_rows p) N (fun i r => den (p_col p (nth r basis 0%nat)) i)) ->
  from_basis_d O D basis p = from_basis O basis p.
Proof.
  intros Pok Hinv Hok Lbas Hr (N & HN). set (k := non_artificial p). set (m := p_rows p) in *.
  assert (Rng : forall r, (r < m)%nat -> (bcol basis r < k_cols k)%nat).
  { intros r Lr. unfold bcol. apply Hr. apply nth_In. lia. }
  pose proof (non_artificial_ok p (pok_cols p Pok)) as Hk.
  assert (Ecols : basis_columns_of k basis = Ok (map (k_col k) basis)).
  { apply basis_columns_of_spec. now rewrite Lbas. }
  assert (HNc : is_inverse m N (cols_mat (map (k_col k) basis))).
  { apply inverse_ext with N (bmat k basis); [apply meq_refl| |exact HN].
    intros i r Li Lr. symmetry. apply cols_mat_map. now rewrite Lbas. }
  assert (Wcols : Forall (wfs m) (map (k_col k) basis)).
  { apply Forall_forall. intros x Hx. apply in_map_iff in Hx. destruct Hx as (j & <- & Hj).
    apply (proj1 Hk). apply In_bcol in Hj. destruct Hj as (r & Lr & <-). apply Rng. now rewrite <- Lbas. }
  assert (Lc : length (map (k_col k) basis) = m) by now rewrite map_length.
  unfold from_basis_d, from_basis, basis_columns_d. fold k. rewrite Ecols. cbn [bind].
  rewrite (slices_ok m) by assumption. cbn [bind].
  apply bind_same; [now apply (dl_invert L D DL m N)|]. intros i E.
  assert (Rep : rep L m i N) by now apply (law_invert O L m (map (k_col k) basis)).
  destruct (sfrom_spec (p_rhs p)) as [Ws Vs]. rewrite (pok_len p Pok) in Ws. fold m in Ws.
  rewrite (slice_ok m) by assumption. cbn [bind].
  apply bind_same; [now apply (dl_left L D DL m _ N)|]. intros bc Ebc.
  destruct (law_left O L m i N (sfrom (p_rhs p)) Rep Ws) as (bc' & Ebc' & Wbc & Vbc).
  rewrite Ebc' in Ebc. inversion Ebc; subst bc'; clear Ebc.
  destruct (foldM_set m (cci_col O bc) 0 (repeat 0 m) Wbc (repeat_length _ _)) as (b & Eb & Lb & Vb).
  fold m. rewrite Eb. cbn [bind]. unfold dense_new. rewrite bind_assert by now apply Nat.eqb_eq. cbn [bind].
  apply bind_same; [reflexivity|]. intros mobj _. apply bind_same; [|reflexivity].
  now apply (create_minus_pi_same O L D DL m i N).
Qed.

(** The numbers of rows that occur in a run are numbers for which the assertions can hold. *)
Definition sizes_d (p : provider) : Prop :=
  ok (p_rows p) /\ (forall l, p_init p = FullInit l -> okinv (p_rows p)) /\
  forall rm, rm <> [] -> redundant p rm ->
    ok (p_rows p - length rm) /\ (d_remove D = None -> okinv (p_rows p - length rm)).

Lemma columns_exist k rhs (t : tableau O) : tab_inv L k rhs t -> (0 < k_rows k)%nat -> k_cols k <> 0%nat.
Proof. intros [I _] Pos. pose proof (ci_range _ _ _ _ _ I 0%nat Pos). lia. Qed.

Lemma phase_two_whole k rhs fuel t : kind_ok k -> tab_inv L k rhs t -> ok (k_rows k) ->
  phase_two_d O D R RD fuel k t = phase_two O R fuel k t.
Proof.
  intros K I W. apply (phase_two_same O L D DL R RL RD RDL k rhs); try assumption.
  - intros t' I'. now apply (current_bfs_wfs O L k rhs).
  - apply (columns_exist k rhs t I). now apply (dl_pos L D DL).
Qed.

Lemma compute_bfs_same fuel p : provider_ok p -> ok (p_rows p) -> (forall l, p_init p <> FullInit l) ->
  compute_bfs_d O D R RD fuel p = compute_bfs O R fuel p.
Proof.
  intros Pok Hok NF. unfold compute_bfs_d, compute_bfs. destruct (p_init p) as [|real|real] eqn:Ei.
  - rewrite new_fully_same by assumption. pose proof (new_fully_spec O L p Pok) as NS.
    destruct (new_fully O p) as [t| |]; cbn [bind]; try reflexivity. destruct NS as [HI Eb].
    rewrite (phase_one_same O L D DL R RL RD RDL p (fully p) (fun j => j)); try reflexivity; try assumption.
    + apply fully_art.
    + now apply fully_ok.
    + intros i Li _. rewrite Eb. unfold bcol. now rewrite seq_nth.
  - pose proof (pok_init p Pok) as PI. unfold init_ok in PI. rewrite Ei in PI. destruct PI as [P1 P2].
    rewrite new_partially_same by assumption. pose proof (new_partially_spec O L p real Pok P1 P2) as NS.
    destruct (new_partially O p real) as [[t arts]| |]; cbn [bind]; try reflexivity.
    destruct NS as (HI & Ha & ND & Hown).
    rewrite (phase_one_same O L D DL R RL RD RDL p (partially p arts) (fun j => nth j arts 0%nat)); try reflexivity; try assumption.
    + now apply partially_art.
    + now apply partially_ok.
  - exfalso. now apply (NF real).
Qed.

(** A build with all assertions does what a build without them does. *)
Theorem solve_same fuel p : provider_ok p -> sizes_d p -> solve_d O D R RD fuel p = solve O R fuel p.
Proof.
  intros Pok (Hok & Hinv & Hred). unfold solve_d, solve.
  assert (Kp : kind_ok (non_artificial p)) by (apply non_artificial_ok; apply (pok_cols p Pok)).
  assert (Two : (forall l, p_init p <> FullInit l) -> solve_two_phase_d O D R RD fuel p = solve_two_phase O R fuel p).
  { intros NF. unfold solve_two_phase_d, solve_two_phase. rewrite compute_bfs_same by assumption.
    pose proof (compute_bfs_spec O L R RL fuel p Pok NF) as CS.
    destruct (compute_bfs O R fuel p) as [[f a]| |]; cbn [bind]; try reflexivity.
    destruct CS as (k & c2r & AK & Kok & Ea & PE). cbn [fst snd] in Ea, PE. subst a.
    assert (Full : forall t, removal_inv O L p k c2r t [] [] ->
       (let* t' := tab_from_artificial_d O D (t_im t) (k_art k) (t_cols t) p in
        phase_two_d O D R RD fuel (non_artificial p) t') =
       (let* t' := tab_from_artificial (t_im t) (k_art k) (t_cols t) p in
        phase_two O R fuel (non_artificial p) t')).
    { intros t V. rewrite (from_artificial_same O L D DL p k c2r); try assumption.
      destruct (from_artificial_spec O L p k c2r AK t V) as (t' & E & HI). rewrite E. cbn [bind].
      now apply (phase_two_whole _ (rhs_of p)). }
    destruct f as [[|rows] t|]; [now apply Full| |reflexivity].
    destruct PE as [Ne V]. destruct rows as [|r0 rows]; [congruence|]. set (rm := r0 :: rows) in *.
    pose proof (removal_redundant O L p k c2r t rm V) as Red.
    destruct (Hred rm Ne Red) as [H1 H2]. cbv zeta.
    pose proof (ri_inc _ _ _ _ _ _ _ _ V) as Inc. cbn [map] in Inc. rewrite app_nil_r in Inc.
    unfold to_filtered_d. rewrite asserted by now apply (increasing_sorted _ 0).
    rewrite asserted by (apply Nat.eqb_eq, set_size_NoDup; now apply (increasing_NoDup _ 0)). cbn [bind].
    rewrite (from_artificial_remove_same O L D DL p k c2r); try assumption.
    pose proof (from_artificial_remove_spec O L p k c2r Pok AK t rm V) as FS.
    destruct (tab_from_artificial_remove (t_im t) (k_art k) (t_cols t) (remove_rows p rm) rm) as [t'| |];
      cbn [bind]; try reflexivity.
    destruct FS as [HI K']. now apply (phase_two_whole _ (rhs_of (remove_rows p rm))). }
  destruct (p_init p) as [|real|pivots] eqn:Ei.
  - apply Two. congruence.
  - apply Two. congruence.
  - unfold solve_full_basis_d, solve_full_basis. pose proof (pok_init p Pok) as PI. unfold init_ok in PI. rewrite Ei in PI.
    destruct PI as (P1 & P2 & P3 & P4).
    pose proof (from_basis_spec O L p pivots Pok P1 P2 P3 P4) as FS.
    assert (E : from_basis_pivots_d O D pivots p = from_basis_pivots O pivots p).
    { unfold from_basis_pivots_d, from_basis_pivots. rewrite sort_by_sorted by assumption.
      apply from_basis_same; try assumption; [now apply (Hinv pivots)|now rewrite map_length| |].
      - intros j Hj. apply in_map_iff in Hj. destruct Hj as ([r j'] & <- & Hj). now apply P3 in Hj.
      - destruct P4 as (N & HN & _). now exists N. }
    rewrite E. destruct (from_basis_pivots O pivots p) as [c| |]; cbn [bind]; try reflexivity.
    destruct FS as [HC Eb]. apply (phase_two_whole _ (rhs_of p)); try assumption.
    split; [exact HC|]. cbn [t_im t_cols]. intros j. now rewrite Eb.
Qed.

End Whole.
