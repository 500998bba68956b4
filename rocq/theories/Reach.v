(** * Invariants of every state of a run *)
From Verif Require Export Runs Agree InvRowsP Bland.

Section R.
Variable O : BIOps.
Variable L : BILaws O.
Variable R : Rule O.
Variable RL : RuleLaws L R.

Definition st_inv (k : kind) (t : tableau O) (s : option (r_state R)) : Prop :=
  match s with Some s => rl_inv L R RL k t s | None => True end.

Definition reach_inv (p : provider) (ph : phase) (p' : provider) (k : kind) (t : tableau O) (s : option (r_state R)) : Prop :=
  kind_ok k /\ tab_inv L k (rhs_of p') t /\ st_inv k t s /\
  match ph with
  | PhaseOne => p' = p /\ exists c2r, art_kind p k c2r /\ own_row p k c2r (c_basis (t_im t))
  | PhaseTwo => k = non_artificial p' /\ (p' = p \/ exists rows, rows <> [] /\ redundant p rows /\
                   increasing_from 0 rows /\ p' = remove_rows p rows)
  end.

Lemma prefix_removal p k c2r (AK : art_kind p k c2r) (Kok : kind_ok k) l2 : forall l1 t rows t' rows',
  removal_inv O L p k c2r t rows (l1 ++ l2) ->
  foldM (removal_step O k) l1 (t, rows) = Ok (t', rows') -> removal_inv O L p k c2r t' rows' l2.
Proof.
  induction l1 as [|[i j] l1 IH]; intros t rows t' rows' V E; cbn [foldM app] in *.
  - injection E as <- <-. exact V.
  - apply bind_inv in E. destruct E as ([t1 rows1] & E1 & E).
    pose proof (removal_step_spec O L p k c2r AK Kok t rows i j (l1 ++ l2) V) as S.
    rewrite E1 in S. now apply (IH t1 rows1).
Qed.

Lemma reach_reach_inv p ph p' k t s : provider_ok p -> reach O R p ph p' k t s -> reach_inv p ph p' k t s.
Proof.
  intros Pok H.
  assert (Kp : kind_ok (non_artificial p)) by (apply non_artificial_ok; apply (pok_cols p Pok)).
  assert (New : forall k rhs t s, kind_ok k -> tab_inv L k rhs t -> r_new R k t = Ok s -> rl_inv L R RL k t s).
  { intros k0 rhs t0 s0 K0 I0 E. destruct (rl_new L R RL k0 rhs t0 K0 I0) as (s1 & E1 & V). congruence. }
  induction H as [t s Ei Et Es|real t arts s Ei Et Es|pivots c s Ei Ec Es|ph p' k t s t' s' H IH Est
     |p' k t s arts l1 l2 t' rows H IH Est Z Ea El Ef|fuel t a t' s NF Ec Et Es|fuel rows t a t' s NF Ec Et Es].
  - pose proof (new_fully_spec O L p Pok) as NS. rewrite Et in NS. destruct NS as [HI Eb].
    split; [now apply fully_ok|]. split; [assumption|]. split; [now apply (New _ (rhs_of p)); [apply fully_ok|..]|].
    split; [reflexivity|]. exists (fun j => j). split; [apply fully_art|].
    intros i Li _. rewrite Eb. unfold bcol. now rewrite seq_nth.
  - pose proof (pok_init p Pok) as PI. unfold init_ok in PI. rewrite Ei in PI. destruct PI as [P1 P2].
    pose proof (new_partially_spec O L p real Pok P1 P2) as NS. rewrite Et in NS. destruct NS as (HI & Ha & ND & Hown).
    pose proof (partially_ok p arts Pok Ha) as Kok.
    split; [assumption|]. split; [assumption|]. split; [now apply (New _ (rhs_of p))|].
    split; [reflexivity|]. exists (fun j => nth j arts 0%nat). split; [now apply partially_art|assumption].
  - pose proof (pok_init p Pok) as PI. unfold init_ok in PI. rewrite Ei in PI. destruct PI as (P1 & P2 & P3 & P4).
    pose proof (from_basis_spec O L p pivots Pok P1 P2 P3 P4) as FS. rewrite Ec in FS. destruct FS as [HC Eb].
    assert (HI : tab_inv L (non_artificial p) (rhs_of p) (mk_tab c (map snd pivots))).
    { split; [exact HC|]. cbn [t_im t_cols]. intros j. now rewrite Eb. }
    split; [assumption|]. split; [assumption|]. split; [now apply (New _ (rhs_of p))|]. split; [reflexivity|now left].
  - destruct IH as (Kok & HI & Vs & Hk). pose proof (step_spec O L R RL k (rhs_of p') t s Kok HI Vs) as S.
    rewrite Est in S. destruct S as (HI' & Vs' & q & r & w & s0 & D & _).
    split; [assumption|]. split; [assumption|]. split; [assumption|].
    destruct ph; [|assumption]. destruct Hk as (-> & c2r & AK & W). split; [reflexivity|]. exists c2r. split; [assumption|].
    destruct D as ([Hc _] & _ & _ & _ & _ & _ & -> & _). apply own_row_upd; [lia|assumption].
  - destruct IH as (Kok & HI & Vs & -> & c2r & AK & W). subst arts.
    destruct (removal_start p k c2r AK O L t HI Z W) as (l & El & V).
    rewrite Ea in El. injection El as <-.
    pose proof (prefix_removal p k c2r AK Kok l2 l1 t [] t' rows V Ef) as V'.
    split; [assumption|]. split; [apply V'|]. split; [exact I|]. split; [reflexivity|]. exists c2r.
    split; [assumption|]. apply V'.
  - pose proof (compute_bfs_spec O L R RL fuel p Pok NF) as CS. rewrite Ec in CS.
    destruct CS as (k & c2r & AK & Kok & Ea & PE). cbn [fst snd] in Ea, PE. subst a.
    destruct (from_artificial_spec O L p k c2r AK t PE) as (t1 & E & HI). rewrite Et in E. injection E as <-.
    split; [assumption|]. split; [assumption|]. split; [now apply (New _ (rhs_of p))|]. split; [reflexivity|now left].
  - pose proof (compute_bfs_spec O L R RL fuel p Pok NF) as CS. rewrite Ec in CS.
    destruct CS as (k & c2r & AK & Kok & Ea & PE). cbn [fst snd phase_one_end] in Ea, PE. subst a. destruct PE as [Ne V].
    pose proof (from_artificial_remove_spec O L p k c2r Pok AK t rows V) as FS. rewrite Et in FS. destruct FS as [HI K'].
    split; [assumption|]. split; [assumption|]. split; [now apply (New _ (rhs_of (remove_rows p rows)))|].
    split; [reflexivity|]. right. exists rows. split; [assumption|].
    split; [exact (removal_redundant O L p k c2r t rows V)|].
    split; [|reflexivity]. pose proof (ri_inc _ _ _ _ _ _ _ _ V) as Inc. cbn [map] in Inc. now rewrite app_nil_r in Inc.
Qed.

Lemma inv_consistent k p t : tab_inv L k (rhs_of p) t -> exists N, consistent O k (p_rhs p) t N.
Proof.
  intros [I S]. destruct (ci_rep _ _ _ _ _ I) as (N & Rp & HN). exists N. split.
  - repeat split; apply I.
  - intros j Hj. apply In_bcol in Hj. destruct Hj as (r & Lr & <-). apply I. now rewrite <- (ci_lbasis _ _ _ _ _ I).
  - exact S.
  - exact HN.
  - intros a Wa. destruct (law_left O L _ _ N a Rp Wa) as (c & E & _ & D). now exists c.
  - intros i Li. exact (solve_unique (k_rows k) N _ (rhs_of p) (nthq (c_b (t_im t))) HN (ci_feas _ _ _ _ _ I) i Li).
  - apply I.
  - intros i Li. rewrite (dual_unique k N _ _ (nthq (c_mpi (t_im t))) HN (ci_dual _ _ _ _ _ I) i Li).
    rewrite <- (Qcopp_involutive (sum (k_rows k) _)). f_equal. rewrite <- sum_opp. apply sum_ext. intros r Lr. unfold bcol. ring.
  - unfold objective_value. rewrite (ci_obj _ _ _ _ _ I). now rewrite Qcopp_involutive.
Qed.

Lemma reach_consistent p ph p' k t s : provider_ok p -> reach O R p ph p' k t s ->
  exists N, consistent O k (p_rhs p') t N.
Proof. intros Pok H. destruct (reach_reach_inv _ _ _ _ _ _ Pok H) as (_ & HI & _). now apply inv_consistent. Qed.

(** a state of the loop either ends, or goes to a state with no larger objective value *)
Lemma reach_step_objective p ph p' k t s t' s' : provider_ok p -> reach O R p ph p' k t (Some s) ->
  simplex_step O R k t s = Ok (StepPivot O R t' s') ->
  objective_value t' <= objective_value t /\
  ((exists r, (r < k_rows k)%nat /\ nth r (c_basis (t_im t')) 0%nat <> nth r (c_basis (t_im t)) 0%nat /\
     0 < nthq (c_b (t_im t')) r) -> objective_value t' < objective_value t).
Proof.
  intros Pok H E. destruct (reach_reach_inv _ _ _ _ _ _ Pok H) as (Kok & HI & Vs & _).
  pose proof (step_spec O L R RL k (rhs_of p') t s Kok HI Vs) as S. rewrite E in S.
  destruct S as (HI' & _ & q & r & w & s0 & D & _). split; [now apply (step_objective O L k (rhs_of p') t t' q r w)|].
  intros (r' & Lr & Ne & Pos). destruct D as (Hc & Hneg & Lp & Hp & _ & _ & Eb & Vb & Eo).
  assert (r' = r).
  { destruct (Nat.eq_dec r' r) as [|N]; [assumption|]. exfalso. apply Ne. rewrite Eb, upd_nth.
    - destruct (Nat.eqb_spec r' r); [contradiction|reflexivity].
    - now rewrite (ci_lbasis _ _ _ _ _ (proj1 HI)). }
  subst r'. rewrite Vb, Nat.eqb_refl in Pos. unfold objective_value. rewrite Eo.
  set (th := nthq (c_b (t_im t)) r / w r) in *. qnra.
Qed.

Lemma reach_objective p ph p' k t s : provider_ok p -> reach O R p ph p' k t s ->
  let x := den (current_bfs t) in
  (forall i, (i < k_rows k)%nat -> sum (k_cols k) (fun j => den (k_col k j) i * x j) = nthq (p_rhs p') i) /\
  (forall j, 0 <= x j) /\ objective_value t = sum (k_cols k) (fun j => k_cost k j * x j).
Proof.
  intros Pok H x. destruct (reach_reach_inv _ _ _ _ _ _ Pok H) as (Kok & HI & _ & _).
  assert (Ext : forall j, den (current_bfs t) j = bfs k t j) by (intros j; now apply (den_current_bfs O L k (rhs_of p'))).
  pose proof (bfs_feasible O L k (rhs_of p') t HI) as [F1 F2]. split; [|split].
  - intros i Li. change (nthq (p_rhs p') i) with (rhs_of p' i). rewrite <- (F1 i Li). apply sum_ext.
    intros j _. unfold x. now rewrite Ext.
  - intros j. destruct (lt_dec j (k_cols k)) as [Lj|Nj]; [unfold x; rewrite Ext; now apply F2|].
    unfold x. rewrite (den_above 0 (k_cols k)); [apply Qcle_refl| |lia]. exact (current_bfs_wfs O L k (rhs_of p') t HI).
  - rewrite <- (bfs_objective O L k (rhs_of p') t HI). apply sum_ext. intros j _. unfold x. now rewrite Ext.
Qed.
End R.
