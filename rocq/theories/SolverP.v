(** * Proofs behind PropSolver.v *)
From Verif Require Export Examples LuL StallP.

Definition laws (r : representation) : BILaws (ops r) := match r with UseLU => LU_laws | UseRows => BIR_laws end.
Definition rule_laws (n : rule_name) O (L : BILaws O) : RuleLaws L (rule n O) :=
  match n with
  | FirstProfitable => first_profitable_laws O L
  | FirstProfitableWithMemory => first_profitable_memory_laws O L
  | DescentAlongVariable => steepest_variable_laws O L
  | DescentAlongObjective => steepest_objective_laws O L
  end.
Definition rule_sim (n : rule_name) O1 O2 (L1 : BILaws O1) (L2 : BILaws O2) :
  RuleSim O1 O2 L1 L2 (rule n O1) (rule n O2) (rule_laws n O1 L1) (rule_laws n O2 L2) :=
  match n with
  | FirstProfitable => first_profitable_sim O1 O2 L1 L2
  | FirstProfitableWithMemory => first_profitable_memory_sim O1 O2 L1 L2
  | DescentAlongVariable => steepest_variable_sim O1 O2 L1 L2
  | DescentAlongObjective => steepest_objective_sim O1 O2 L1 L2
  end.

Lemma run_spec r n fuel p : provider_ok p ->
  match run r n fuel p with
  | Ok res => result_ok p res
  | Panic => ~ sizes_ok (ops r) (laws r) p
  | Fuel => sizes_ok (ops r) (laws r) p -> loop_out (ops r) (laws r) (rule n (ops r)) fuel p
  end.
Proof. intros Pok. exact (solve_spec (ops r) (laws r) _ (rule_laws n (ops r) (laws r)) fuel p Pok). Qed.

Lemma run_optimum r n fuel p x : provider_ok p -> run r n fuel p = Ok (FiniteOptimum x) ->
  optimal p (den x) /\ wfs (p_cols p) x.
Proof. intros Pok E. pose proof (run_spec r n fuel p Pok) as S. rewrite E in S. apply S. Qed.
Lemma run_vertex r n fuel p x : provider_ok p -> run r n fuel p = Ok (FiniteOptimum x) -> vertex p (den x) /\ (length x <= p_rows p)%nat.
Proof. intros Pok E. pose proof (run_spec r n fuel p Pok) as S. rewrite E in S. apply S. Qed.
Lemma run_infeasible r n fuel p : provider_ok p -> run r n fuel p = Ok Infeasible -> forall x, ~ feasible p x.
Proof. intros Pok E. pose proof (run_spec r n fuel p Pok) as S. rewrite E in S. exact S. Qed.
Lemma run_unbounded r n fuel p : provider_ok p -> run r n fuel p = Ok Unbounded -> unbounded p.
Proof. intros Pok E. pose proof (run_spec r n fuel p Pok) as S. rewrite E in S. exact S. Qed.

Lemma sizes_rows p : (forall l, p_init p = FullInit l -> (1 <= p_rows p)%nat) -> sizes_ok BIR BIR_laws p.
Proof.
  intros H. split; [exact I|]. split; [exact I|]. split; [exact H|]. intros rm _ _. split; [exact I|].
  intros E. discriminate E.
Qed.
Lemma sizes_lu p : (2 <= p_rows p)%nat -> (forall rm, redundant p rm -> (length rm + 2 <= p_rows p)%nat) ->
  sizes_ok LU LU_laws p.
Proof.
  intros H2 H. split; [cbn; lia|]. split; [cbn; lia|]. split; [cbn; intros; lia|].
  intros rm _ Red. specialize (H rm Red). cbn. split; [lia|intros; lia].
Qed.
Lemma run_no_panic_rows n fuel p : provider_ok p ->
  (forall l, p_init p = FullInit l -> (1 <= p_rows p)%nat) -> run UseRows n fuel p <> Panic.
Proof.
  intros Pok H E. pose proof (run_spec UseRows n fuel p Pok) as S. rewrite E in S. apply S. now apply sizes_rows.
Qed.
Lemma run_no_panic_lu n fuel p : provider_ok p -> (2 <= p_rows p)%nat ->
  (forall rm, redundant p rm -> (length rm + 2 <= p_rows p)%nat) -> run UseLU n fuel p <> Panic.
Proof.
  intros Pok H2 H E. pose proof (run_spec UseLU n fuel p Pok) as S. rewrite E in S. apply S. now apply sizes_lu.
Qed.

(** a problem whose rows are independent has no redundant rows *)
Lemma independent_redundant p : (forall y, (forall j, (j < p_cols p)%nat ->
     sum (p_rows p) (fun r => y r * den (p_col p j) r) = 0) -> forall i, (i < p_rows p)%nat -> y i = 0) ->
  forall rm, redundant p rm -> rm = [].
Proof.
  intros H [|i rm] [_ R]; [reflexivity|exfalso]. destruct (R i (or_introl eq_refl)) as (Li & y & Y1 & _ & Y2 & _).
  specialize (H y Y2 i Li). rewrite H in Y1. discriminate.
Qed.

Lemma one_row_panics : run UseLU DescentAlongObjective 5 ex_one_row = Panic.
Proof. vm_compute. reflexivity. Qed.

Lemma step_cost r n p ph p' k t s t' s' : provider_ok p ->
  reach (ops r) (rule n (ops r)) p ph p' k t (Some s) ->
  simplex_step (ops r) (rule n (ops r)) k t s = Ok (StepPivot _ _ t' s') ->
  objective_value t' <= objective_value t /\
  ((exists i, (i < k_rows k)%nat /\ nth i (c_basis (t_im t')) 0%nat <> nth i (c_basis (t_im t)) 0%nat /\
     0 < nthq (c_b (t_im t')) i) -> objective_value t' < objective_value t).
Proof. apply (reach_step_objective (ops r) (laws r) _ (rule_laws n (ops r) (laws r))). Qed.

Lemma phase_one_rows r n fuel p rows t a : provider_ok p -> (forall l, p_init p <> FullInit l) ->
  compute_bfs (ops r) (rule n (ops r)) fuel p = Ok (PhaseOneFeasible _ (RankDeficient rows) t, a) ->
  rows <> [] /\ redundant p rows /\ (forall x, feasible (remove_rows p rows) x <-> feasible p x).
Proof.
  intros Pok NF E. pose proof (compute_bfs_spec (ops r) (laws r) _ (rule_laws n (ops r) (laws r)) fuel p Pok NF) as S.
  rewrite E in S. destruct S as (k & c2r & AK & Kok & Ea & PE). cbn [fst snd phase_one_end] in *. destruct PE as [Ne V].
  pose proof (removal_redundant _ _ p k c2r t rows V) as Red. split; [assumption|]. split; [assumption|].
  intros x. apply remove_rows_feasible; try assumption.
  pose proof (ri_inc _ _ _ _ _ _ _ _ V) as Inc. cbn [map] in Inc. now rewrite app_nil_r in Inc.
Qed.

(** the points that satisfy the rows outside [rows] *)
Lemma redundant_rows_implied p rows x : redundant p rows ->
  (forall i, (i < p_rows p)%nat -> ~ In i rows ->
     sum (p_cols p) (fun j => den (p_col p j) i * x j) = nthq (p_rhs p) i) ->
  forall i, (i < p_rows p)%nat -> sum (p_cols p) (fun j => den (p_col p j) i * x j) = nthq (p_rhs p) i.
Proof.
  intros [_ R] H i Li. destruct (in_dec Nat.eq_dec i rows) as [Hi|Hi]; [|now apply H].
  destruct (R i Hi) as (_ & y & Y1 & Y2 & Y3 & Y4).
  set (m := p_rows p) in *. set (Ax := fun i => sum (p_cols p) (fun j => den (p_col p j) i * x j)) in *.
  assert (Z : sum m (fun r => y r * Ax r) = 0).
  { unfold Ax. rewrite (sum_ext m _ (fun r => sum (p_cols p) (fun j => y r * den (p_col p j) r * x j))).
    2:{ intros r _. rewrite <- sum_scal_l. apply sum_ext. intros j _. ring. }
    rewrite sum_swap. apply sum_zero. intros j Lj. rewrite (sum_scal_r m (x j) (fun r => y r * den (p_col p j) r)).
    rewrite Y3 by assumption. ring. }
  assert (D : sum m (fun r => y r * (Ax r - nthq (p_rhs p) r)) = 0).
  { rewrite (sum_ext m _ (fun r => y r * Ax r + - (y r * nthq (p_rhs p) r))) by (intros; ring).
    rewrite sum_plus, sum_opp, Z, Y4. ring. }
  assert (E : sum m (fun r => y r * (Ax r - nthq (p_rhs p) r)) = Ax i - nthq (p_rhs p) i).
  { rewrite (sum_ext m _ (fun r => delta i r * (Ax r - nthq (p_rhs p) r))).
    - rewrite (sum_delta_l m i) by assumption. reflexivity.
    - intros r Lr. destruct (Nat.eq_dec r i) as [->|Ne]; [now rewrite Y1, delta_same|].
      rewrite (delta_diff i r) by congruence. destruct (in_dec Nat.eq_dec r rows) as [Hr|Hr].
      + now rewrite Y2.
      + unfold Ax. rewrite (H r Lr Hr). ring. }
  rewrite E in D. transitivity (Ax i - nthq (p_rhs p) i + nthq (p_rhs p) i)%Qc; [unfold Ax; ring|rewrite D; ring].
Qed.

Lemma run_first_profitable_within r p fuel : provider_ok p -> sizes_ok (ops r) (laws r) p ->
  ((p_rows p + p_cols p) ^ p_rows p < fuel)%nat -> exists res, run r FirstProfitable fuel p = Ok res.
Proof. intros Pok Sz Hf. destruct (solve_first_profitable_terminates (ops r) (laws r) p fuel Pok Sz) as (res & E & _); [lia|]. now exists res. Qed.
(** a run that is not over by then has made a step in place *)
Lemma run_stalls r n p fuel : provider_ok p -> sizes_ok (ops r) (laws r) p -> ((p_rows p + p_cols p) ^ p_rows p < fuel)%nat ->
  run r n fuel p = Fuel -> exists ph p' k t s t' s', reach (ops r) (rule n (ops r)) p ph p' k t (Some s) /\
    simplex_step (ops r) (rule n (ops r)) k t s = Ok (StepPivot _ _ t' s') /\ objective_value t' = objective_value t /\
    exists i, (i < k_rows k)%nat /\ nthq (c_b (t_im t)) i = 0%Qc.
Proof.
  intros Pok Sz Hf E. pose proof (run_spec r n fuel p Pok) as SP. rewrite E in SP.
  destruct (SP Sz) as (k & rhs & t & s & Kok & HI & Lr & Lc & _ & EL & Hok & ph & p' & _ & H).
  assert (Hf' : (k_cols k ^ k_rows k <= fuel)%nat).
  { apply Nat.le_trans with ((p_rows p + p_cols p) ^ p_rows p)%nat; [|lia]. destruct (Nat.eq_dec (k_rows k) 0) as [Z|Z].
    - rewrite Z. cbn [Nat.pow]. destruct (Nat.eq_dec (p_rows p) 0) as [Z2|Z2]; [rewrite Z2; cbn [Nat.pow]; lia|].
      assert ((p_rows p + p_cols p) ^ p_rows p <> 0)%nat by (apply Nat.pow_nonzero; lia). lia.
    - apply Nat.le_trans with ((p_rows p + p_cols p) ^ k_rows k)%nat; [now apply Nat.pow_le_mono_l|apply Nat.pow_le_mono_r; lia]. }
  destruct (loop_stalls (ops r) (laws r) _ (rule_laws n (ops r) (laws r)) p p' ph k Pok fuel t s Hok H Hf' EL) as (t1 & s1 & H1 & St).
  pose proof (stalling_zero (ops r) (laws r) _ (rule_laws n (ops r) (laws r)) p p' ph k Pok t1 s1 H1 St) as Z.
  destruct St as (t2 & s2 & E2 & OE). now exists ph, p', k, t1, s1, t2, s2.
Qed.
Lemma run_nondegenerate r n p fuel : provider_ok p -> sizes_ok (ops r) (laws r) p -> nondegenerate p ->
  ((p_rows p + p_cols p) ^ p_rows p < fuel)%nat -> exists res, run r n fuel p = Ok res.
Proof.
  intros Pok Sz ND Hf. destruct (run r n fuel p) as [res| |] eqn:E; [now exists res| |].
  - exfalso. pose proof (run_spec r n fuel p Pok) as SP. rewrite E in SP. now apply SP.
  - exfalso. destruct (run_stalls r n p fuel Pok Sz Hf E) as (ph & p' & k & t & s & t' & s' & H & _ & _ & i & Li & Z).
    pose proof (nondegenerate_positive p ND (ops r) (laws r) _ (rule_laws n (ops r) (laws r)) Pok ph p' k t _ H i Li) as P.
    rewrite Z in P. now apply (Qclt_not_eq _ _ P).
Qed.

Lemma run_first_profitable r p : provider_ok p -> sizes_ok (ops r) (laws r) p ->
  exists fuel res, forall fuel', (fuel <= fuel')%nat -> run r FirstProfitable fuel' p = Ok res.
Proof.
  intros Pok Sz. set (f := Datatypes.S ((p_rows p + p_cols p) ^ p_rows p)).
  destruct (solve_first_profitable_terminates (ops r) (laws r) p f Pok Sz) as (res & E & _); [unfold f; lia|].
  exists f, res. intros f' Le. unfold run. rewrite <- E. apply solve_mono; [assumption|]. cbn [rule]. congruence.
Qed.

Lemma phase_two_first_profitable r p' k t p ph s : provider_ok p ->
  reach (ops r) (first_profitable (ops r)) p ph p' k t (Some s) -> ok_change (laws r) (k_rows k) ->
  simplex_loop (ops r) (first_profitable (ops r)) (k_cols k ^ k_rows k) k t s <> Fuel.
Proof.
  intros Pok Rc Hok. destruct s.
  destruct (reach_reach_inv (ops r) (laws r) (first_profitable (ops r)) (first_profitable_laws _ _) p _ _ _ _ _ Pok Rc)
    as (Kok & HI & _).
  apply (first_profitable_terminates (ops r) (laws r) k (rhs_of p') Kok); try assumption. lia.
Qed.

Lemma ex_optimum_nondegenerate : nondegenerate ex_optimum.
Proof.
  intros x y Hx Hy E. pose proof (E 0%nat ltac:(cbn; lia)) as E0. pose proof (E 1%nat ltac:(cbn; lia)) as E1. clear E.
  unfold nonzeros. cbn [ex_optimum plain p_rows p_cols length seq filter].
  change (sum 4 (fun j => den (p_col ex_optimum j) 0 * x j) + y 0%nat = zq 4)%Qc in E0.
  change (sum 4 (fun j => den (p_col ex_optimum j) 1 * x j) + y 1%nat = zq 6)%Qc in E1.
  cbn in E0, E1. unfold Examples.zq, zq in E0, E1.
  assert (F0 : (x 0%nat + x 1%nat + x 2%nat + y 0%nat = Q2Qc 4)%Qc) by (unfold inject_Z in E0; clear - E0; qlra).
  assert (F1 : (x 0%nat + Q2Qc 3 * x 1%nat + x 3%nat + y 1%nat = Q2Qc 6)%Qc) by (unfold inject_Z in E1; clear - E1; qlra). clear E0 E1.
  destruct (qzero (x 0%nat)) eqn:X0, (qzero (x 1%nat)) eqn:X1, (qzero (x 2%nat)) eqn:X2, (qzero (x 3%nat)) eqn:X3,
    (qzero (y 0%nat)) eqn:Y0, (qzero (y 1%nat)) eqn:Y1; cbn [negb length app]; try lia; exfalso; qb;
    try rewrite X0 in *; try rewrite X1 in *; try rewrite X2 in *; try rewrite X3 in *; try rewrite Y0 in *; try rewrite Y1 in *; clear - F0 F1; qlra.
Qed.

(** *** Cycling *)
Lemma ex_cycle_ok : provider_ok ex_cycle.
Proof. apply plain_ok. vm_compute. reflexivity. Qed.
Lemma ex_cycle_variable_ok : provider_ok ex_cycle_variable.
Proof. apply plain_ok. vm_compute. reflexivity. Qed.

Definition same_memory (a b : option nat) : bool :=
  match a, b with Some x, Some y => Nat.eqb x y | None, None => true | _, _ => false end.
Lemma objective_cycles r fuel : run r DescentAlongObjective fuel ex_cycle = Fuel.
Proof.
  refine (returns_forever (ops r) (laws r) _ _ (rule_sim DescentAlongObjective (ops r) (ops r) (laws r) (laws r))
    (fun _ _ => true) 0 6 ex_cycle ex_cycle_ok _ _ _ _ _ fuel).
  - intros l E. discriminate E.
  - destruct r; cbn; [lia|exact I].
  - lia.
  - intros; exact I.
  - destruct r; vm_compute; reflexivity.
Qed.
Lemma memory_cycles r fuel : run r FirstProfitableWithMemory fuel ex_cycle = Fuel.
Proof.
  refine (returns_forever (ops r) (laws r) _ _ (rule_sim FirstProfitableWithMemory (ops r) (ops r) (laws r) (laws r))
    same_memory 6 6 ex_cycle ex_cycle_ok _ _ _ _ _ fuel).
  - intros l E. discriminate E.
  - destruct r; cbn; [lia|exact I].
  - lia.
  - intros [a|] [b|]; cbn; try discriminate; try reflexivity. intros E. apply Nat.eqb_eq in E. now subst.
  - destruct r; vm_compute; reflexivity.
Qed.
Lemma variable_cycles r fuel : run r DescentAlongVariable fuel ex_cycle_variable = Fuel.
Proof.
  refine (returns_forever (ops r) (laws r) _ _ (rule_sim DescentAlongVariable (ops r) (ops r) (laws r) (laws r))
    (fun _ _ => true) 0 6 ex_cycle_variable ex_cycle_variable_ok _ _ _ _ _ fuel).
  - intros l E. discriminate E.
  - destruct r; cbn; [lia|exact I].
  - lia.
  - intros; exact I.
  - destruct r; vm_compute; reflexivity.
Qed.

(** *** Pricing *)
Lemma cost_of_inverse O (L : BILaws O) k p t N j : kind_ok k -> tab_inv L k (rhs_of p) t -> consistent O k (p_rhs p) t N ->
  (j < k_cols k)%nat -> relative_cost k t j = reduced_cost k (c_basis (t_im t)) N j.
Proof.
  intros Kok TI C Lj. rewrite relative_cost_spec by (now apply Kok). unfold reduced_cost, kA.
  rewrite Qcplus_comm. unfold Qcminus. f_equal.
  rewrite (sum_ext (k_rows k) _ (fun i => sum (k_rows k) (fun r =>
     - (k_cost k (nth r (c_basis (t_im t)) 0%nat) * (N r i * den (k_col k j) i))))).
  - rewrite sum_swap, <- sum_opp. apply sum_ext. intros r Lr. rewrite sum_opp, sum_scal_l. reflexivity.
  - intros i Li. rewrite (cs_pi _ _ _ _ _ C i Li), sum_opp.
    transitivity (- (sum (k_rows k) (fun r => k_cost k (nth r (c_basis (t_im t)) 0%nat) * N r i) * den (k_col k j) i));
      [ring|]. rewrite <- sum_scal_r. f_equal. apply sum_ext. intros; ring.
Qed.
