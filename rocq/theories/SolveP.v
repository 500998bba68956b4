(** * The whole solver *)
From Verif Require Export FinishP.
From Verif Require Import Runs.

Section S.
Variable O : BIOps.
Variable L : BILaws O.
Variable R : Rule O.
Variable RL : RuleLaws L R.

Definition result_ok (p : provider) (r : opt_result) : Prop :=
  match r with
  | FiniteOptimum x => (optimal p (den x) /\ wfs (p_cols p) x) /\ vertex p (den x) /\ (length x <= p_rows p)%nat
  | Infeasible => forall x, ~ feasible p x
  | Unbounded => unbounded p
  end.

Lemma phase_two_spec fuel p t :
  kind_ok (non_artificial p) -> tab_inv L (non_artificial p) (rhs_of p) t ->
  match phase_two O R fuel (non_artificial p) t with
  | Ok r => result_ok p r
  | Panic => ~ ok_change L (p_rows p)
  | Fuel => exists s, r_new R (non_artificial p) t = Ok s /\
              simplex_loop O R fuel (non_artificial p) t s = Fuel
  end.
Proof.
  intros Kok HI. set (k := non_artificial p) in *. unfold phase_two.
  destruct (rl_new L R RL k (rhs_of p) t Kok HI) as (s & Es & Hs). rewrite Es. cbn [bind].
  pose proof (loop_spec O L R RL k (rhs_of p) (fun _ => True) Kok (fun _ _ _ _ _ => I) fuel t s HI Hs I) as LS.
  destruct (simplex_loop O R fuel k t s) as [[t'|t']| |] eqn:EL; cbn [bind].
  - destruct LS as (HI' & HP & _). cbn [result_ok].
    assert (Fe : kfeasible k (rhs_of p) (bfs k t')) by now apply (bfs_feasible O L).
    assert (Ext : forall j, den (current_bfs t') j = bfs k t' j) by (intros j; now apply (den_current_bfs O L k (rhs_of p))).
    split.
    2:{ split; [|exact (current_bfs_length O L k (rhs_of p) t' HI')]. intros y Z E. apply (bfs_vertex O L k (rhs_of p) t' y HI').
        - intros j Lj. rewrite <- Ext. now apply Z.
        - exact E. }
    split; [|exact (current_bfs_wfs O L k (rhs_of p) t' HI')]. split.
    + split.
      * intros i Li. change (nthq (p_rhs p) i) with (rhs_of p i). rewrite <- (proj1 Fe i Li). apply sum_ext. intros j _. rewrite Ext. reflexivity.
      * intros j Lj. rewrite Ext. now apply (proj2 Fe).
    + intros y Hy.
      assert (E : objective p (den (current_bfs t')) = kobj k (bfs k t')).
      { apply sum_ext. intros j _. rewrite Ext. reflexivity. }
      rewrite E, (bfs_objective O L k (rhs_of p)) by assumption.
      apply (priced_out_optimal O L k (rhs_of p)); try assumption.
      intros j Lj. cbn in Lj. lia.
  - destruct LS as (HI' & HR & _). cbn [result_ok]. split.
    + exists (bfs k t'). exact (bfs_feasible O L k (rhs_of p) t' HI').
    + intros bound. exact (has_ray_unbounded O L k (rhs_of p) t' bound Kok HI' HR).
  - exact LS.
  - exists s. now split.
Qed.

(** result of phase one together with the kind that was used *)
Definition bfs_ok (p : provider) (fa : feasibility O * nat) : Prop :=
  exists k c2r, art_kind p k c2r /\ kind_ok k /\ snd fa = k_art k /\ phase_one_end O L p k c2r (fst fa).

(** a loop of one of the phases ran out of fuel; [k] is no larger than the problem with one
    artificial variable per row, and the loop started in a state of the run *)
Definition loop_out (fuel : nat) (p : provider) : Prop :=
  exists k rhs t s, kind_ok k /\ tab_inv L k rhs t /\ (k_rows k <= p_rows p)%nat /\
    (k_cols k <= p_rows p + p_cols p)%nat /\ r_new R k t = Ok s /\
    simplex_loop O R fuel k t s = Fuel /\ ok_change L (k_rows k) /\
    exists ph p', rhs = rhs_of p' /\ reach O R p ph p' k t (Some s).

Lemma compute_bfs_spec fuel p :
  provider_ok p -> (forall l, p_init p <> FullInit l) ->
  match compute_bfs O R fuel p with
  | Ok fa => bfs_ok p fa
  | Panic => ~ (ok_new L (p_rows p) /\ ok_change L (p_rows p))
  | Fuel => ok_new L (p_rows p) /\ ok_change L (p_rows p) -> loop_out fuel p
  end.
Proof.
  intros Pok NF. unfold compute_bfs. destruct (p_init p) as [|real|real] eqn:Ei.
  - pose proof (new_fully_spec O L p Pok) as NS. destruct (new_fully O p) as [t| |] eqn:En; cbn [bind]; [|tauto|tauto].
    destruct NS as [HI Eb].
    pose proof (phase_one_spec O L R RL p (fully p) (fun j => j) (fully_art p) (fully_ok p Pok) fuel t HI) as PS.
    assert (W : own_row p (fully p) (fun j => j) (c_basis (t_im t))).
    { intros i Li _. rewrite Eb. unfold bcol. now rewrite seq_nth. }
    specialize (PS W). destruct (phase_one O R fuel (fully p) t) as [f| |]; cbn [bind]; [|tauto|].
    2:{ intros [_ Hok]. destruct PS as [PS|C]; [|contradiction].
        destruct (rl_new L R RL (fully p) (rhs_of p) t (fully_ok p Pok) HI) as (s & Es & _).
        exists (fully p), (rhs_of p), t, s. specialize (PS s Es).
        split; [apply (fully_ok p Pok)|]. split; [exact HI|]. split; [cbn; lia|]. split; [cbn; lia|]. split; [exact Es|]. split; [exact PS|]. split; [exact Hok|].
        exists PhaseOne, p. split; [reflexivity|]. now apply reach_fully. }
    exists (fully p), (fun j => j). exact (conj (fully_art p) (conj (fully_ok p Pok) (conj eq_refl PS))).
  - pose proof (pok_init p Pok) as PI. unfold init_ok in PI. rewrite Ei in PI. destruct PI as [P1 P2].
    pose proof (new_partially_spec O L p real Pok P1 P2) as NS.
    destruct (new_partially O p real) as [[t arts]| |] eqn:En; cbn [bind]; [|tauto|tauto].
    destruct NS as (HI & Ha & ND & Hown).
    pose proof (partially_art p arts Ha) as AK. pose proof (partially_ok p arts Pok Ha) as Kok.
    pose proof (phase_one_spec O L R RL p (partially p arts) _ AK Kok fuel t HI Hown) as PS.
    destruct (phase_one O R fuel (partially p arts) t) as [f| |]; cbn [bind]; [|tauto|].
    2:{ intros [_ Hok]. destruct PS as [PS|C]; [|contradiction].
        destruct (rl_new L R RL (partially p arts) (rhs_of p) t Kok HI) as (s & Es & _).
        exists (partially p arts), (rhs_of p), t, s. specialize (PS s Es).
        assert (La : (length arts <= p_rows p)%nat).
        { rewrite <- (seq_length (p_rows p) 0). apply (NoDup_incl_length ND). intros x Hx. apply in_seq.
          split; [lia|]. now apply Ha. }
        split; [exact Kok|]. split; [exact HI|]. split; [cbn; lia|]. split; [cbn; lia|]. split; [exact Es|]. split; [exact PS|]. split; [exact Hok|].
        exists PhaseOne, p. split; [reflexivity|]. now apply (reach_partially O R p real). }
    exists (partially p arts), (fun j => nth j arts 0%nat). exact (conj AK (conj Kok (conj eq_refl PS))).
  - exfalso. now apply (NF real).
Qed.

Lemma removed_result_ok p rows r :
  provider_ok p -> increasing_from 0 rows -> redundant p rows ->
  result_ok (remove_rows p rows) r -> result_ok p r.
Proof.
  intros Pok Inc Red. assert (F := fun x => remove_rows_feasible p rows x Pok Inc Red).
  destruct r as [|x|]; cbn [result_ok].
  - intros H x Hx. apply (H x). now apply F.
  - intros [[[H1 H2] W] [V Le]]. split; [split; [|exact W]; split; [now apply F|]; intros y Hy; apply (H2 y); now apply F|].
    split; [|cbn [remove_rows p_rows] in Le; lia].
    intros y Z E. apply (V y Z). cbn [remove_rows p_rows p_cols p_col]. destruct Red as [ND Hrd].
    assert (Srt : sorted_rows (p_rows p) rows) by (split; [assumption|]; intros i Hi; now apply Hrd).
    rewrite <- (kept_length _ _ Srt). intros i Li. rewrite <- (E (nth i (kept (p_rows p) rows) 0%nat)).
    + apply sum_ext. intros j Lj. f_equal. rewrite (pok_filter p Pok rows j Inc (conj ND Hrd) Lj). apply (den_sremove (p_rows p)); try assumption.
      intros j' v Hin. apply (wfs_In_lt _ _ _ _ (pok_cols p Pok j Lj) Hin).
    + now apply (kept_In (p_rows p) rows), nth_In.
  - intros [[x Hx] H]. split; [exists x; now apply F|]. intros bound. destruct (H bound) as (y & Hy & Ho).
    exists y. split; [now apply F|exact Ho].
Qed.

(** the dimensions that occur in a run stay inside what the basis inverse representation supports *)
Definition sizes_ok (p : provider) : Prop :=
  ok_new L (p_rows p) /\ ok_change L (p_rows p) /\
  (forall l, p_init p = FullInit l -> ok_invert L (p_rows p)) /\
  forall rm, rm <> [] -> redundant p rm ->
    ok_change L (p_rows p - length rm) /\
    (bi_remove O = None -> ok_invert L (p_rows p - length rm)).

Theorem solve_spec fuel p :
  provider_ok p ->
  match solve O R fuel p with
  | Ok r => result_ok p r
  | Panic => ~ sizes_ok p
  | Fuel => sizes_ok p -> loop_out fuel p
  end.
Proof.
  intros Pok. unfold solve.
  assert (Two : (forall l, p_init p <> FullInit l) ->
     match solve_two_phase O R fuel p with
     | Ok r => result_ok p r | Panic => ~ sizes_ok p | Fuel => sizes_ok p -> loop_out fuel p end).
  { intros NF. unfold solve_two_phase. pose proof (compute_bfs_spec fuel p Pok NF) as CS.
    destruct (compute_bfs O R fuel p) as [[f a]| |] eqn:Ec; cbn [bind].
    2:{ unfold sizes_ok. tauto. }
    2:{ unfold sizes_ok. tauto. }
    destruct CS as (k & c2r & AK & Kok & Ea & PE). cbn [fst snd] in Ea, PE. subst a.
    assert (Kp : kind_ok (non_artificial p)) by (apply non_artificial_ok; apply (pok_cols p Pok)).
    assert (Full : forall t, compute_bfs O R fuel p = Ok (PhaseOneFeasible O RankFull t, k_art k) -> removal_inv O L p k c2r t [] [] ->
       match (let* t' := tab_from_artificial (t_im t) (k_art k) (t_cols t) p in
              phase_two O R fuel (non_artificial p) t') with
       | Ok r => result_ok p r | Panic => ~ sizes_ok p | Fuel => sizes_ok p -> loop_out fuel p end).
    { intros t Et V. destruct (from_artificial_spec O L p k c2r AK t V) as (t' & E & HI). rewrite E. cbn [bind].
      pose proof (phase_two_spec fuel p t' Kp HI) as PT.
      destruct (phase_two O R fuel (non_artificial p) t') as [r| |]; [exact PT|unfold sizes_ok; tauto|].
      intros (_ & Hok & _). destruct PT as (s & Es & EL). exists (non_artificial p), (rhs_of p), t', s.
      split; [exact Kp|]. split; [exact HI|]. split; [cbn; lia|]. split; [cbn; lia|]. split; [exact Es|]. split; [exact EL|]. split; [exact Hok|].
      exists PhaseTwo, p. split; [reflexivity|]. now apply (reach_full_rank O R p fuel t (k_art k)). }
    destruct f as [[|rows] t|].
    - now apply Full.
    - destruct PE as [Ne V]. destruct rows as [|r0 rows]; [congruence|]. set (rm := r0 :: rows) in *.
      pose proof (removal_redundant O L p k c2r t rm V) as Red.
      pose proof (ri_inc _ _ _ _ _ _ _ _ V) as Inc. cbn [map] in Inc. rewrite app_nil_r in Inc.
      pose proof (from_artificial_remove_spec O L p k c2r Pok AK t rm V) as FS.
      destruct (tab_from_artificial_remove (t_im t) (k_art k) (t_cols t) (remove_rows p rm) rm)
        as [t'| |] eqn:Er; cbn [bind].
      + destruct FS as [HI K']. pose proof (phase_two_spec fuel (remove_rows p rm) t' K' HI) as PT.
        destruct (phase_two O R fuel (non_artificial (remove_rows p rm)) t') as [r| |].
        * now apply (removed_result_ok p rm).
        * intros (_ & _ & _ & H). now apply PT, (H rm Ne Red).
        * intros (_ & _ & _ & H). destruct (H rm Ne Red) as [Hok _]. destruct PT as (s & Es & EL).
          exists (non_artificial (remove_rows p rm)), (rhs_of (remove_rows p rm)), t', s.
          split; [exact K'|]. split; [exact HI|]. split; [cbn; lia|]. split; [cbn; lia|]. split; [exact Es|]. split; [exact EL|]. split; [exact Hok|].
          exists PhaseTwo, (remove_rows p rm). split; [reflexivity|]. now apply (reach_removed_rows O R p fuel rm t (k_art k)).
      + intros (_ & _ & _ & H). destruct FS as [F1 F2]. apply F2. now apply (H rm Ne Red).
      + intros (_ & _ & _ & H). destruct FS as [F1 F2]. exfalso. apply F2. now apply (H rm Ne Red).
    - exact PE. }
  destruct (p_init p) as [|real|pivots] eqn:Ei.
  - apply Two. congruence.
  - apply Two. congruence.
  - unfold solve_full_basis. pose proof (pok_init p Pok) as PI. unfold init_ok in PI. rewrite Ei in PI.
    destruct PI as (P1 & P2 & P3 & P4).
    pose proof (from_basis_spec O L p pivots Pok P1 P2 P3 P4) as FS.
    destruct (from_basis_pivots O pivots p) as [c| |] eqn:Ec; cbn [bind].
    + destruct FS as [HC Eb].
      assert (HI : tab_inv L (non_artificial p) (rhs_of p) (mk_tab c (map snd pivots))).
      { split; [exact HC|]. cbn [t_im t_cols]. intros j. now rewrite Eb. }
      assert (Kp : kind_ok (non_artificial p)) by (apply non_artificial_ok; apply (pok_cols p Pok)).
      pose proof (phase_two_spec fuel p _ Kp HI) as PT.
      destruct (phase_two O R fuel (non_artificial p) (mk_tab c (map snd pivots))) as [r| |];
        [exact PT|unfold sizes_ok; tauto|].
      intros (_ & Hok & _). destruct PT as (s & Es & EL). eexists (non_artificial p), (rhs_of p), _, s.
      split; [exact Kp|]. split; [exact HI|]. split; [cbn; lia|]. split; [cbn; lia|]. split; [exact Es|]. split; [exact EL|]. split; [exact Hok|].
      exists PhaseTwo, p. split; [reflexivity|]. now apply (reach_basis O R p pivots).
    + intros (_ & _ & H & _). apply FS. now apply (H pivots).
    + intros (_ & _ & H & _). exfalso. apply FS. now apply (H pivots).
Qed.

End S.
