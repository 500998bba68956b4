(** * The multipliers a tableau holds when a phase ends *)
From Verif Require Export SpecDual Reach SolverP.
Local Open Scope Qc_scope.

(** ** What certificates prove *)
Lemma bound_proved p y v x : proves_bound p y v -> feasible p x -> v <= objective p x.
Proof.
  intros [H <-] [F N]. unfold objective.
  assert (E : sum (p_rows p) (fun i => y i * nthq (p_rhs p) i) = sum (p_cols p) (fun j => sum (p_rows p) (fun i => y i * den (p_col p j) i) * x j)).
  { rewrite <- (dot_assoc (p_rows p) (p_cols p) y (fun i j => den (p_col p j) i) x). apply sum_ext. intros i Li. now rewrite F. }
  rewrite E. apply sum_le. intros j Lj. specialize (H j Lj). specialize (N j Lj). pose proof (Qc_mul_nonneg (p_cost p j - sum (p_rows p) (fun i => y i * den (p_col p j) i)) (x j)). assert (0 <= p_cost p j - sum (p_rows p) (fun i => y i * den (p_col p j) i)) as G by qlra. specialize (H0 G N).
  set (s := sum (p_rows p) _) in *. clearbody s. qlra.
Qed.
Lemma infeasible_proved p y x : proves_infeasible p y -> ~ feasible p x.
Proof.
  intros [H P] F. set (p0 := mk_provider (p_rows p) (p_cols p) (p_col p) (fun _ => 0) (p_rhs p) (p_init p) (p_filtered p)).
  assert (B : proves_bound p0 y (sum (p_rows p) (fun i => y i * nthq (p_rhs p) i))) by (split; [exact H|reflexivity]).
  pose proof (bound_proved p0 y _ x B F) as C. unfold objective in C. cbn [p0 p_cols p_cost] in C. rewrite (sum_zero (p_cols p) (fun j => 0 * x j)) in C by (intros; ring). qlra.
Qed.
Lemma ray_unbounded p x d : feasible p x -> ray p d -> forall bound, exists y, feasible p y /\ objective p y < bound.
Proof.
  intros [F N] (R0 & R1 & R2) bound.
  assert (G : forall t, 0 <= t -> feasible p (fun j => x j + t * d j) /\ objective p (fun j => x j + t * d j) = objective p x + t * objective p d).
  { intros t T. split; [split|].
    - intros i Li. rewrite <- (F i Li). rewrite (sum_ext _ _ (fun j => den (p_col p j) i * x j + t * (den (p_col p j) i * d j))) by (intros; ring). rewrite sum_plus, sum_scal_l, R0 by assumption. ring.
    - intros j Lj. specialize (N j Lj). pose proof (Qc_mul_nonneg t (d j) T (R1 j Lj)). qlra.
    - unfold objective. rewrite <- sum_scal_l, <- sum_plus. apply sum_ext. intros j _. ring. }
  destruct (Qclt_le_dec (objective p x) bound) as [L|L]; [exists x; split; [now split|exact L]|].
  assert (ND : objective p d <> 0) by (intros E; rewrite E in R2; now apply (Qclt_not_eq _ _ R2)).
  set (t := (bound - objective p x - 1) / objective p d).
  assert (Et : t * objective p d = bound - objective p x - 1) by (unfold t; field; exact ND).
  assert (T : 0 <= t).
  { destruct (Qclt_le_dec t 0) as [Q|Q]; [|exact Q]. exfalso. set (o := objective p d) in *. set (a := objective p x) in *. clearbody t o a. qnra. }
  destruct (G t T) as [G1 G2]. exists (fun j => x j + t * d j). split; [exact G1|]. rewrite G2, Et. qlra.
Qed.

(** ** The state in which a loop stops *)
Section S.
Variable O : BIOps.
Variable L : BILaws O.
Variable R : Rule O.
Variable RL : RuleLaws L R.

Definition multiplier (t : tableau O) (i : nat) : Qc := - nthq (c_mpi (t_im t)) i.

Lemma multiplier_value k rhs t : tab_inv L k rhs t -> sum (k_rows k) (fun i => multiplier t i * rhs i) = objective_value t.
Proof.
  intros [I S]. unfold multiplier.
  rewrite (sum_ext _ _ (fun i => - (nthq (c_mpi (t_im t)) i * sum (k_rows k) (fun r => bmat k (c_basis (t_im t)) i r * nthq (c_b (t_im t)) r)))).
  2:{ intros i Li. rewrite (ci_feas _ _ _ _ _ I) by assumption. ring. }
  rewrite sum_opp, dot_assoc. unfold objective_value. rewrite (ci_obj _ _ _ _ _ I). rewrite Qcopp_involutive, <- sum_opp. apply sum_ext. intros r Lr.
  rewrite (ci_dual _ _ _ _ _ I) by assumption. ring.
Qed.
Lemma multiplier_cost k t j : wfs (k_rows k) (k_col k j) -> relative_cost k t j = k_cost k j - sum (k_rows k) (fun i => multiplier t i * kA k i j).
Proof.
  intros W. rewrite relative_cost_spec by assumption. unfold multiplier. rewrite (sum_ext _ (fun i => - nthq (c_mpi (t_im t)) i * kA k i j) (fun i => - (nthq (c_mpi (t_im t)) i * kA k i j))) by (intros; ring).
  rewrite sum_opp. ring.
Qed.
Lemma stop_phase_two p p' k t s : provider_ok p -> reach O R p PhaseTwo p' k t (Some s) -> simplex_step O R k t s = Ok (StepNoColumn O R) ->
  proves_bound p' (multiplier t) (objective_value t).
Proof.
  intros Pok H E. destruct (reach_reach_inv O L R RL p PhaseTwo p' k t (Some s) Pok H) as (Kok & HI & Vs & -> & _).
  pose proof (step_spec O L R RL _ (rhs_of p') t s Kok HI Vs) as S. rewrite E in S. split; [|exact (multiplier_value (non_artificial p') (rhs_of p') t HI)].
  intros j Lj. specialize (S j (conj (Nat.le_0_l j) Lj)). rewrite multiplier_cost in S by (apply (proj1 Kok); exact Lj). change (sum (k_rows (non_artificial p')) (fun i => multiplier t i * kA (non_artificial p') i j)) with (sum (p_rows p') (fun i => multiplier t i * den (p_col p' j) i)) in S.
  change (k_cost (non_artificial p') j) with (p_cost p' j) in S. qlra.
Qed.
Lemma stop_phase_one p p' k t s : provider_ok p -> reach O R p PhaseOne p' k t (Some s) -> simplex_step O R k t s = Ok (StepNoColumn O R) ->
  objective_value t <> 0 -> proves_infeasible p (multiplier t).
Proof.
  intros Pok H E NZ. destruct (reach_reach_inv O L R RL p PhaseOne p' k t (Some s) Pok H) as (Kok & HI & Vs & -> & c2r & AK & W).
  pose proof (step_spec O L R RL _ (rhs_of p) t s Kok HI Vs) as S. rewrite E in S. split.
  - intros j Lj. specialize (S (k_art k + j)%nat). assert (LK : (k_art k + j < k_cols k)%nat) by (rewrite (ak_cols _ _ _ AK); lia).
    rewrite multiplier_cost in S by (apply (proj1 Kok); exact LK). specialize (S (conj (Nat.le_add_r _ _) LK)). unfold kA in S. rewrite (ak_rcol _ _ _ AK), (ak_rcost _ _ _ AK), (ak_rows _ _ _ AK) in S by assumption. qlra.
  - pose proof (multiplier_value k (rhs_of p) t HI) as V. rewrite (ak_rows _ _ _ AK) in V. unfold rhs_of in V. rewrite V.
    pose proof (objective_nonneg O L p k c2r AK t HI) as N. apply Qcnot_le_lt. intros C. apply NZ. now apply Qcle_antisym.
Qed.
Lemma stop_ray p p' k t s : provider_ok p -> reach O R p PhaseTwo p' k t (Some s) -> simplex_step O R k t s = Ok (StepNoRow O R) -> exists d, ray p' d.
Proof.
  intros Pok H E. destruct (reach_reach_inv O L R RL p PhaseTwo p' k t (Some s) Pok H) as (Kok & HI & Vs & Ek & _).
  pose proof (step_spec O L R RL _ (rhs_of p') t s Kok HI Vs) as S. rewrite E in S. destruct S as [(q & w & Lq & _ & Neg & Wn & Wb) _].
  destruct (ray_points O L k (rhs_of p') t q w 1 Kok HI (proj2 Lq) Wn Wb ltac:(qlra)) as [F1 C1]. destruct (ray_points O L k (rhs_of p') t q w 0 Kok HI (proj2 Lq) Wn Wb (Qcle_refl _)) as [F0 C0]. cbv zeta in F1, C1, F0, C0.
  set (y1 := fun j => _ + 1 * _) in F1, C1. set (y0 := fun j => _ + 0 * _) in F0, C0. exists (fun j => y1 j - y0 j). subst k. split; [|split].
  - intros i Li. rewrite (sum_ext _ _ (fun j => kA (non_artificial p') i j * y1 j - kA (non_artificial p') i j * y0 j)) by (intros; unfold kA; cbn; ring).
    rewrite sum_minus. pose proof (proj1 F1 i Li) as G1. pose proof (proj1 F0 i Li) as G0. cbn [non_artificial k_cols] in G1, G0. rewrite G1, G0. ring.
  - intros j Lj. unfold y1, y0, spread. assert (X : 0 <= sum (k_rows (non_artificial p')) (fun r => delta (bcol (c_basis (t_im t)) r) j * - w r)).
    { apply (spread_nonneg (k_rows (non_artificial p')) (c_basis (t_im t)) (fun r => - w r)). intros r Lr. specialize (Wn r Lr). qlra. }
    rewrite (sum_ext _ (fun r => delta (bcol (c_basis (t_im t)) r) j * (nthq (c_b (t_im t)) r - 1 * w r)) (fun r => delta (bcol (c_basis (t_im t)) r) j * (nthq (c_b (t_im t)) r - 0 * w r) + delta (bcol (c_basis (t_im t)) r) j * - w r)) by (intros; ring).
    rewrite sum_plus. assert (D : 0 <= delta q j) by (unfold delta; destruct (Nat.eqb q j); qlra). set (a := sum _ _) in *. set (b := sum _ (fun r => _ * - w r)) in *. clearbody a b. qlra.
  - unfold objective. rewrite (sum_ext _ _ (fun j => k_cost (non_artificial p') j * y1 j - k_cost (non_artificial p') j * y0 j)) by (intros; cbn; ring). rewrite sum_minus.
    unfold kobj in C1, C0. cbn [non_artificial k_cols] in C1, C0. rewrite C1, C0. qlra.
Qed.

(** ** How a run ends *)
Lemma loop_end p ph p' k : forall fuel t s r, reach O R p ph p' k t (Some s) -> simplex_loop O R fuel k t s = Ok r ->
  match r with
  | LoopOptimal _ t' => exists s', reach O R p ph p' k t' (Some s') /\ simplex_step O R k t' s' = Ok (StepNoColumn O R)
  | LoopUnbounded _ t' => exists s', reach O R p ph p' k t' (Some s') /\ simplex_step O R k t' s' = Ok (StepNoRow O R)
  end.
Proof.
  induction fuel as [|fuel IH]; intros t s r H E; [discriminate E|]. cbn [simplex_loop] in E. apply bind_inv in E. destruct E as (st & ES & E). destruct st as [| |t' s'].
  - injection E as <-. exists s. now split.
  - injection E as <-. exists s. now split.
  - apply (IH t' s' r); [|exact E]. now apply (reach_step O R p ph p' k t s).
Qed.
Definition run_end (p : provider) (res : opt_result) : Prop :=
  match res with
  | FiniteOptimum x => exists p' k t s, reach O R p PhaseTwo p' k t (Some s) /\ simplex_step O R k t s = Ok (StepNoColumn O R) /\ x = current_bfs t
  | Unbounded => exists p' k t s, reach O R p PhaseTwo p' k t (Some s) /\ simplex_step O R k t s = Ok (StepNoRow O R)
  | Infeasible => exists p' k t s, reach O R p PhaseOne p' k t (Some s) /\ simplex_step O R k t s = Ok (StepNoColumn O R) /\ objective_value t <> 0
  end.
Lemma phase_two_end p p' k t fuel res : (forall s, r_new R k t = Ok s -> reach O R p PhaseTwo p' k t (Some s)) -> phase_two O R fuel k t = Ok res -> run_end p res.
Proof.
  intros H E. unfold phase_two in E. apply bind_inv in E. destruct E as (s & ES & E). apply bind_inv in E. destruct E as (r & EL & E). pose proof (loop_end p PhaseTwo p' k fuel t s r (H s ES) EL) as LE.
  destruct r as [t'|t']; injection E as <-; destruct LE as (s' & A & B); exists p', k, t', s'; [split; [exact A|]; split; [exact B|reflexivity]|now split].
Qed.
Lemma phase_one_end p k t fuel : (forall s, r_new R k t = Ok s -> reach O R p PhaseOne p k t (Some s)) -> phase_one O R fuel k t = Ok (PhaseOneInfeasible O) -> run_end p Infeasible.
Proof.
  intros H E. unfold phase_one in E. apply bind_inv in E. destruct E as (s & ES & E). apply bind_inv in E. destruct E as (r & EL & E). pose proof (loop_end p PhaseOne p k fuel t s r (H s ES) EL) as LE.
  destruct r as [t'|t']; [|discriminate E]. destruct (qzero (objective_value t')) eqn:Z.
  - destruct (has_artificial k t'); [|discriminate E]. apply bind_inv in E. destruct E as ([t'' rows] & _ & E). destruct rows; discriminate E.
  - destruct LE as (s' & A & B). exists p, k, t', s'. split; [exact A|]. split; [exact B|]. intros C. rewrite C in Z. discriminate Z.
Qed.
Lemma solve_end fuel p res : solve O R fuel p = Ok res -> run_end p res.
Proof.
  unfold solve. intros E. assert (NF : (forall l, p_init p <> FullInit l) -> solve_two_phase O R fuel p = Ok res -> run_end p res).
  { clear E. intros NF E. unfold solve_two_phase in E. apply bind_inv in E. destruct E as ([f a] & EC & E). destruct f as [[|rows] t|].
    - apply bind_inv in E. destruct E as (t' & ET & E). apply (phase_two_end p p (non_artificial p) t' fuel res); [|exact E]. intros s ES. now apply (reach_full_rank O R p fuel t a).
    - destruct rows as [|r rows].
      + exfalso. unfold compute_bfs in EC. assert (P1 : forall k t0, phase_one O R fuel k t0 = Ok (PhaseOneFeasible O (RankDeficient []) t) -> False).
        { clear. intros k t0 E. unfold phase_one in E. apply bind_inv in E. destruct E as (s & ES & E). apply bind_inv in E. destruct E as (r & EL & E). destruct r as [t'|]; [|discriminate E]. destruct (qzero _); [|discriminate E].
          destruct (has_artificial k t'); [|discriminate E]. apply bind_inv in E. destruct E as ([t'' rows] & _ & E). destruct rows; discriminate E. }
        destruct (p_init p) as [|real|real]; apply bind_inv in EC; destruct EC as (x & _ & EC); try destruct x as [x arts]; apply bind_inv in EC; destruct EC as (f & EF & EC); assert (f = PhaseOneFeasible O (RankDeficient []) t) as -> by congruence; now apply P1 in EF.
      + apply bind_inv in E. destruct E as (t' & ET & E). apply (phase_two_end p (remove_rows p (r :: rows)) (non_artificial (remove_rows p (r :: rows))) t' fuel res); [|exact E]. intros s ES. now apply (reach_removed_rows O R p fuel (r :: rows) t a).
    - injection E as <-. unfold compute_bfs in EC. destruct (p_init p) as [|real|real] eqn:Ei.
      + apply bind_inv in EC. destruct EC as (t & ET & EC). apply bind_inv in EC. destruct EC as (f & EF & EC). injection EC as -> _. apply (phase_one_end p (fully p) t fuel); [|exact EF]. intros s ES. now apply reach_fully.
      + apply bind_inv in EC. destruct EC as ([t arts] & ET & EC). apply bind_inv in EC. destruct EC as (f & EF & EC). injection EC as -> _. apply (phase_one_end p (partially p arts) t fuel); [|exact EF]. intros s ES. now apply (reach_partially O R p real).
      + now destruct (NF real). }
  destruct (p_init p) as [|real|real] eqn:Ei; try (apply NF; [intros l; discriminate|exact E]).
  unfold solve_full_basis in E. apply bind_inv in E. destruct E as (c & EC & E). apply (phase_two_end p p (non_artificial p) (mk_tab c (map snd real)) fuel res); [|exact E]. intros s ES. now apply reach_basis.
Qed.

(** ** Certificates for the answers *)
Lemma bound_removed p rm y v : provider_ok p -> increasing_from 0 rm -> redundant p rm -> proves_bound (remove_rows p rm) y v -> exists y', proves_bound p y' v.
Proof.
  intros Pok Inc Hr [H1 H2]. pose proof Hr as [ND Hrd]. assert (Srt : sorted_rows (p_rows p) rm) by (split; [assumption|]; intros i Hi; now apply Hrd). pose proof (kept_length _ _ Srt) as LK.
  set (K := kept (p_rows p) rm) in *. cbn [remove_rows p_rows p_cols p_col p_rhs p_cost] in H1, H2. rewrite <- LK in H1, H2.
  assert (B : forall r, (r < length K)%nat -> (bcol K r < p_rows p)%nat) by (intros r Lr; apply (proj1 (kept_In (p_rows p) rm (bcol K r))), nth_In, Lr).
  exists (spread (length K) K y). split.
  - intros j Lj. rewrite (sum_ext _ _ (fun i => den (p_col p j) i * spread (length K) K y i)) by (intros; ring). rewrite (sum_spread (length K) (p_rows p) K y (fun i => den (p_col p j) i) B).
    specialize (H1 j Lj). rewrite (sum_ext _ _ (fun i => y i * den (p_filtered p rm j) i)); [exact H1|]. intros i Li. rewrite (pok_filter p Pok rm j Inc Hr Lj).
    rewrite (den_sremove (p_rows p)) by (assumption || (intros j' v' Hin; apply (wfs_In_lt _ _ _ _ (pok_cols p Pok j Lj) Hin))). unfold bcol, K. ring.
  - rewrite <- H2. rewrite (sum_ext _ _ (fun i => nthq (p_rhs p) i * spread (length K) K y i)) by (intros; ring). rewrite (sum_spread (length K) (p_rows p) K y (fun i => nthq (p_rhs p) i) B).
    apply sum_ext. intros i Li. unfold nthq, bcol, K. rewrite nth_remove_indices by (rewrite (pok_len p Pok); exact Li). rewrite (pok_len p Pok). ring.
Qed.
Lemma ray_removed p rm d : provider_ok p -> increasing_from 0 rm -> redundant p rm -> ray (remove_rows p rm) d -> ray p d.
Proof.
  intros Pok Inc Hr (R0 & R1 & R2). pose proof Hr as [ND Hrd]. split; [|split; [exact R1|exact R2]].
  assert (Srt : sorted_rows (p_rows p) rm) by (split; [assumption|]; intros i Hi; now apply Hrd). pose proof (kept_length _ _ Srt) as LK. cbn [remove_rows p_rows p_cols p_col] in R0. rewrite <- LK in R0.
  assert (Kept : forall i, (i < p_rows p)%nat -> ~ In i rm -> sum (p_cols p) (fun j => den (p_col p j) i * d j) = 0).
  { intros i Li Ni. assert (Hin : In i (kept (p_rows p) rm)) by now apply kept_In. destruct (In_nth _ _ 0%nat Hin) as (i' & Li' & Ei'). rewrite <- (R0 i' Li'). apply sum_ext. intros j Lj. f_equal.
    rewrite (pok_filter p Pok rm j Inc Hr Lj). rewrite (den_sremove (p_rows p)) by (assumption || (intros j' v' Hin'; apply (wfs_In_lt _ _ _ _ (pok_cols p Pok j Lj) Hin'))). now rewrite Ei'. }
  intros i Li. destruct (in_dec Nat.eq_dec i rm) as [Hin|Hout]; [|now apply Kept]. destruct (Hrd i Hin) as (_ & y & Y1 & Y2 & Y3 & Y4).
  assert (Z : sum (p_rows p) (fun r => y r * sum (p_cols p) (fun j => den (p_col p j) r * d j)) = 0).
  { rewrite (dot_assoc (p_rows p) (p_cols p) y (fun r j => den (p_col p j) r) d). apply sum_zero. intros j Lj. rewrite Y3 by assumption. ring. }
  rewrite (sum_single _ i) in Z; [rewrite Y1 in Z; rewrite <- Z; ring|assumption|]. intros r Lr Ne. destruct (in_dec Nat.eq_dec r rm) as [Hr'|Hr'].
  - rewrite Y2 by assumption. ring.
  - rewrite Kept by assumption. ring.
Qed.
Lemma solve_optimum_certified fuel p x : provider_ok p -> solve O R fuel p = Ok (FiniteOptimum x) -> exists y, proves_bound p y (objective p (den x)).
Proof.
  intros Pok E. destruct (solve_end fuel p _ E) as (p' & k & t & s & H & ES & ->). pose proof (stop_phase_two p p' k t s Pok H ES) as C.
  destruct (reach_reach_inv O L R RL p PhaseTwo p' k t (Some s) Pok H) as (_ & HI & _ & Ek & Hp). destruct (reach_objective O L R RL p PhaseTwo p' k t (Some s) Pok H) as (_ & _ & EO). subst k.
  destruct Hp as [->|(rows & _ & Red & Inc & ->)].
  - exists (multiplier t). replace (objective p (den (current_bfs t))) with (objective_value t) by exact EO. exact C.
  - replace (objective p (den (current_bfs t))) with (objective_value t) by exact EO. exact (bound_removed p rows _ _ Pok Inc Red C).
Qed.
Lemma solve_infeasible_certified fuel p : provider_ok p -> solve O R fuel p = Ok Infeasible -> exists y, proves_infeasible p y.
Proof. intros Pok E. destruct (solve_end fuel p _ E) as (p' & k & t & s & H & ES & NZ). exists (multiplier t). exact (stop_phase_one p p' k t s Pok H ES NZ). Qed.
Lemma solve_unbounded_certified fuel p : provider_ok p -> solve O R fuel p = Ok Unbounded -> exists d, ray p d.
Proof.
  intros Pok E. destruct (solve_end fuel p _ E) as (p' & k & t & s & H & ES). destruct (stop_ray p p' k t s Pok H ES) as (d & RD). exists d.
  destruct (reach_reach_inv O L R RL p PhaseTwo p' k t (Some s) Pok H) as (_ & _ & _ & _ & [->|(rows & _ & Red & Inc & ->)]); [exact RD|]. now apply (ray_removed p rows).
Qed.
End S.
