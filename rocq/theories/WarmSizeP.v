(** * Numbers stay small after starting from a chosen basis *)
From Verif Require Import DetQ SpecSize WarmP.
From Verif Require Export SizeP.
Local Open Scope Qc_scope.

(** the tableau at the end *)
Lemma start_end r n fuel p basis x : well_sized p -> feasible_basis p basis -> start_from r n fuel p basis = Ok (FiniteOptimum x) ->
  exists t, tab_inv (laws r) (non_artificial p) (rhs_of p) t /\ x = current_bfs t.
Proof.
  intros [Sl Sc] (N & (Lb & Rb & I) & Nn). unfold start_from.
  pose proof (from_basis_core (ops r) (laws r) p basis Sl Sc Lb Rb (ex_intro _ N (conj I Nn))) as FS.
  destruct (from_basis (ops r) basis p) as [c| |]; cbn [bind]; try discriminate.
  destruct FS as [HC Eb].
  assert (HI : tab_inv (laws r) (non_artificial p) (rhs_of p) (mk_tab c basis)).
  { split; [exact HC|]. cbn [t_im t_cols]. intros j. now rewrite Eb. }
  assert (Kp : kind_ok (non_artificial p)) by (apply non_artificial_ok; exact Sc). unfold phase_two.
  destruct (rl_new _ _ (rule_laws n (ops r) (laws r)) (non_artificial p) (rhs_of p) _ Kp HI) as (s & Es & Hs). rewrite Es. cbn [bind].
  pose proof (loop_spec _ _ _ (rule_laws n (ops r) (laws r)) _ (rhs_of p) (fun _ => True) Kp (fun _ _ _ _ _ => Logic.I) fuel _ s HI Hs Logic.I) as LS.
  destruct (simplex_loop _ _ fuel _ _ s) as [[t'|t']| |]; cbn [bind]; try discriminate. intros E. injection E as <-. exists t'. split; [apply LS|reflexivity].
Qed.
Lemma start_sizes_small d K r n fuel p basis x : well_sized p -> feasible_basis p basis -> data_size d K p ->
  start_from r n fuel p basis = Ok (FiniteOptimum x) ->
  (forall j, size_at_most (det_bound (p_rows p) K) (den x j)) /\
  size_at_most ((Z.of_nat (p_rows p) + 1) * (K * det_bound (p_rows p) K)) (objective p (den x)).
Proof.
  intros S F DS E. destruct (start_end r n fuel p basis x S F E) as (t & HI & ->). pose proof (ds_one _ _ _ DS) as KD.
  destruct (inv_consistent (ops r) (laws r) (non_artificial p) p t HI) as (N & CS).
  destruct (state_inverse d K (ops r) (non_artificial p) (p_rhs p) t N KD (ds_cols _ _ _ DS) CS) as (D & D0 & DM & DN).
  assert (M1 : (1 <= det_bound (p_rows p) K)%Z) by (apply det_bound_pos; lia). split.
  - intros j. destruct (Qc_eq_dec (den (current_bfs t) j) 0) as [->|NZ]; [apply size_zero; exact M1|].
    destruct (den_nonzero_In _ _ NZ) as (v & Hin). pose proof (current_bfs_wfs _ (laws r) _ (rhs_of p) t HI) as W. apply (proj1 (den_In_iff _ _ _ _ W)) in Hin as Ev. rewrite (proj1 Ev).
    unfold current_bfs, carry_bfs in Hin. apply sort_by_In in Hin. apply filter_In in Hin. destruct Hin as [Hin _].
    apply in_combine_r in Hin. destruct (In_nth _ _ 0 Hin) as (i & Li & Ei). rewrite <- Ei. rewrite (ci_lb _ _ _ _ _ (proj1 HI)) in Li.
    apply (small_size _ _ D); [exact D0|exact DM|]. exact (value_small d K _ (non_artificial p) (p_rhs p) _ _ KD (ds_rhs _ _ _ DS) CS D DN i Li).
  - replace (objective p (den (current_bfs t))) with (objective_value t).
    2:{ rewrite <- (bfs_objective _ (laws r) _ (rhs_of p) t HI). apply sum_ext. intros j _. now rewrite (den_current_bfs _ (laws r) (non_artificial p) (rhs_of p)). }
    pose proof (objective_small d K _ (non_artificial p) (p_rhs p) _ _ KD (ds_rhs _ _ _ DS) (ds_cost _ _ _ DS) CS D DN) as F4. cbn [non_artificial k_rows] in F4, DM.
    apply (small_size _ _ (Zpos d * D)); [lia| |].
    + rewrite Z.abs_mul. assert (Q : (Z.abs (Zpos d) * Z.abs D <= K * det_bound (p_rows p) K)%Z) by (apply Z.mul_le_mono_nonneg; lia). assert (0 <= K * det_bound (p_rows p) K)%Z by nia. nia.
    + revert F4. apply zsmall_le. assert (0 <= K * det_bound (p_rows p) K)%Z by nia. nia.
Qed.
