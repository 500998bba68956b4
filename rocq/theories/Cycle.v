(** * Runs that never end *)
From Verif Require Export Reach.

(** ** More fuel does not change a result *)
Section Mono.
Variable O : BIOps.
Variable R : Rule O.
Lemma loop_mono k f g : (f <= g)%nat -> forall t s, simplex_loop O R f k t s <> Fuel ->
  simplex_loop O R g k t s = simplex_loop O R f k t s.
Proof.
  revert g. induction f as [|f IH]; intros g Le t s H; [cbn in H; congruence|].
  destruct g as [|g]; [lia|]. cbn [simplex_loop] in *.
  destruct (simplex_step O R k t s) as [[| |t' s']| |]; cbn [bind] in *; try reflexivity.
  apply IH; [lia|assumption].
Qed.
Lemma phase_one_mono k f g t : (f <= g)%nat -> phase_one O R f k t <> Fuel ->
  phase_one O R g k t = phase_one O R f k t.
Proof.
  intros Le H. unfold phase_one in *. destruct (r_new R k t) as [s| |]; cbn [bind] in *; try reflexivity.
  rewrite (loop_mono k f g Le t s); [reflexivity|]. intros E. rewrite E in H. cbn in H. congruence.
Qed.
Lemma phase_two_mono k f g t : (f <= g)%nat -> phase_two O R f k t <> Fuel ->
  phase_two O R g k t = phase_two O R f k t.
Proof.
  intros Le H. unfold phase_two in *. destruct (r_new R k t) as [s| |]; cbn [bind] in *; try reflexivity.
  rewrite (loop_mono k f g Le t s); [reflexivity|]. intros E. rewrite E in H. cbn in H. congruence.
Qed.
Lemma compute_bfs_mono p f g : (f <= g)%nat -> compute_bfs O R f p <> Fuel ->
  compute_bfs O R g p = compute_bfs O R f p.
Proof.
  intros Le H. unfold compute_bfs in *. destruct (p_init p) as [|real|real].
  - destruct (new_fully O p) as [t| |]; cbn [bind] in *; try reflexivity.
    rewrite (phase_one_mono _ f g t Le); [reflexivity|]. intros E. rewrite E in H. cbn in H. congruence.
  - destruct (new_partially O p real) as [[t arts]| |]; cbn [bind] in *; try reflexivity.
    rewrite (phase_one_mono _ f g t Le); [reflexivity|]. intros E. rewrite E in H. cbn in H. congruence.
  - destruct (new_partially O p real) as [[t arts]| |]; cbn [bind] in *; try reflexivity.
    rewrite (phase_one_mono _ f g t Le); [reflexivity|]. intros E. rewrite E in H. cbn in H. congruence.
Qed.
Lemma solve_mono p f g : (f <= g)%nat -> solve O R f p <> Fuel -> solve O R g p = solve O R f p.
Proof.
  intros Le H. unfold solve in *.
  assert (Two : solve_two_phase O R f p <> Fuel -> solve_two_phase O R g p = solve_two_phase O R f p).
  { clear H. intros H. unfold solve_two_phase in *.
    rewrite (compute_bfs_mono p f g Le) by (intros E; rewrite E in H; cbn in H; congruence).
    destruct (compute_bfs O R f p) as [[fe a]| |]; cbn [bind] in *; try reflexivity.
    destruct fe as [[|[|r rows]] t|]; try reflexivity.
    - destruct (tab_from_artificial _ _ _ _) as [t'| |]; cbn [bind] in *; try reflexivity. now apply phase_two_mono.
    - destruct (tab_from_artificial _ _ _ _) as [t'| |]; cbn [bind] in *; try reflexivity. now apply phase_two_mono.
    - cbn zeta in *. destruct (tab_from_artificial_remove _ _ _ _ _) as [t'| |]; cbn [bind] in *; try reflexivity.
      now apply phase_two_mono. }
  destruct (p_init p) as [|real|pivots]; try now apply Two.
  unfold solve_full_basis in *. destruct (from_basis_pivots O pivots p) as [c| |]; cbn [bind] in *; try reflexivity.
  now apply phase_two_mono.
Qed.

(** [n] pivots *)
Fixpoint steps (n : nat) (k : kind) (t : tableau O) (s : r_state R) : res (tableau O * r_state R) :=
  match n with
  | 0%nat => Ok (t, s)
  | S n => let* r := simplex_step O R k t s in
           match r with StepPivot _ _ t' s' => steps n k t' s' | _ => Panic end
  end.
Lemma steps_loop k f : forall n t s t' s', steps n k t s = Ok (t', s') ->
  simplex_loop O R (n + f) k t s = simplex_loop O R f k t' s'.
Proof.
  induction n as [|n IH]; intros t s t' s' E; cbn [steps Nat.add] in *.
  - injection E as <- <-. reflexivity.
  - cbn [simplex_loop]. destruct (simplex_step O R k t s) as [[| |t1 s1]| |]; cbn [bind] in *; try discriminate.
    now apply IH.
Qed.
End Mono.

(** ** Cycles *)
Section Cycle.
Variable O : BIOps.
Variable L : BILaws O.
Variable R : Rule O.
Variable RL : RuleLaws L R.
Variable RS : RuleSim O O L L R R RL RL.

Lemma steps_inv k rhs : kind_ok k -> forall n t s t' s', tab_inv L k rhs t -> rl_inv L R RL k t s ->
  steps O R n k t s = Ok (t', s') -> tab_inv L k rhs t' /\ rl_inv L R RL k t' s'.
Proof.
  intros Kok. induction n as [|n IH]; intros t s t' s' HI V E; cbn [steps] in *.
  - injection E as <- <-. now split.
  - pose proof (step_spec O L R RL k rhs t s Kok HI V) as S.
    destruct (simplex_step O R k t s) as [[| |t1 s1]| |]; cbn [bind] in *; try discriminate.
    destruct S as (HI1 & V1 & _). now apply (IH t1 s1).
Qed.

(** when a basis is met again the loop does not end *)
Lemma cycle_forever k rhs n t s t' s' : kind_ok k -> ok_change L (k_rows k) ->
  tab_inv L k rhs t -> rl_inv L R RL k t s -> (0 < n)%nat ->
  steps O R n k t s = Ok (t', s') -> c_basis (t_im t) = c_basis (t_im t') ->
  rs_rel O O L L R R RL RL RS s s' ->
  forall fuel, simplex_loop O R fuel k t s = Fuel.
Proof.
  intros Kok Hok HI V Hn E Eb Rel.
  destruct (steps_inv k rhs Kok n t s t' s' HI V E) as [HI' V'].
  assert (Rs : rsim O O L L R R RL RL RS k rhs t s t' s').
  { split; [|split; [assumption|split; assumption]]. split; [assumption|]. split; [assumption|exact Eb]. }
  assert (Back : forall f, simplex_loop O R f k t s = Fuel -> simplex_loop O R f k t' s' = Fuel).
  { intros f F. pose proof (loop_agree O O L L R R RL RL RS k rhs Kok f t s t' s' Rs) as A. rewrite F in A.
    destruct (simplex_loop O R f k t' s'); cbn in A; [exfalso; now apply A|exfalso; now apply A|reflexivity]. }
  induction fuel as [fuel IH] using lt_wf_ind.
  destruct (le_lt_dec n fuel) as [Le|Lt].
  - replace fuel with (n + (fuel - n))%nat by lia. rewrite (steps_loop O R k (fuel - n) n t s t' s' E).
    apply Back, IH. lia.
  - assert (F : simplex_loop O R n k t s = Fuel).
    { replace n with (n + 0)%nat by lia. rewrite (steps_loop O R k 0 n t s t' s' E). reflexivity. }
    destruct (simplex_loop O R fuel k t s) eqn:C; try reflexivity; exfalso.
    + rewrite (loop_mono O R k fuel n) in F by (try lia; congruence). congruence.
    + rewrite (loop_mono O R k fuel n) in F by (try lia; congruence). congruence.
Qed.
End Cycle.

(** a check that can be evaluated *)
Definition returns (O : BIOps) (R : Rule O) (eqs : r_state R -> r_state R -> bool) (n0 n : nat) (p : provider) : bool :=
  match compute_bfs O R 1 p with
  | Ok (PhaseOneFeasible _ RankFull t, a) =>
      match tab_from_artificial (t_im t) a (t_cols t) p with
      | Ok t0 =>
          match r_new R (non_artificial p) t0 with
          | Ok s0 =>
              match steps O R n0 (non_artificial p) t0 s0 with
              | Ok (t1, s1) =>
                  match steps O R n (non_artificial p) t1 s1 with
                  | Ok (t2, s2) => forallb (fun '(a, b) => Nat.eqb a b) (combine (c_basis (t_im t1)) (c_basis (t_im t2)))
                                   && eqs s1 s2
                  | _ => false
                  end
              | _ => false
              end
          | _ => false
          end
      | _ => false
      end
  | _ => false
  end.

Lemma returns_forever O (L : BILaws O) R RL (RS : RuleSim O O L L R R RL RL) eqs n0 n p :
  provider_ok p -> (forall l, p_init p <> FullInit l) -> ok_change L (p_rows p) -> (0 < n)%nat ->
  (forall s s', eqs s s' = true -> rs_rel O O L L R R RL RL RS s s') ->
  returns O R eqs n0 n p = true -> forall fuel, solve O R fuel p = Fuel.
Proof.
  intros Pok NF Hok Hn Heq H fuel. unfold returns in H.
  destruct (compute_bfs O R 1 p) as [[[[|rows] t|] a]| |] eqn:Ec; try discriminate.
  destruct (tab_from_artificial (t_im t) a (t_cols t) p) as [t0| |] eqn:Et; try discriminate.
  destruct (r_new R (non_artificial p) t0) as [s0| |] eqn:Es; try discriminate.
  destruct (steps O R n0 (non_artificial p) t0 s0) as [[t1 s1]| |] eqn:E1; try discriminate.
  destruct (steps O R n (non_artificial p) t1 s1) as [[t2 s2]| |] eqn:E2; try discriminate.
  apply andb_true_iff in H. destruct H as [Hb Hs].
  pose proof (reach_full_rank O R p 1%nat t a t0 s0 NF Ec Et Es) as Rc.
  destruct (reach_reach_inv O L R RL p _ _ _ _ _ Pok Rc) as (Kok & HI & V & _). cbn [st_inv] in V.
  destruct (steps_inv O L R RL _ _ Kok n0 t0 s0 t1 s1 HI V E1) as [HI1 V1].
  destruct (steps_inv O L R RL _ _ Kok n t1 s1 t2 s2 HI1 V1 E2) as [HI2 V2].
  assert (Eb : c_basis (t_im t1) = c_basis (t_im t2)).
  { assert (Len : length (c_basis (t_im t1)) = length (c_basis (t_im t2))).
    { rewrite (ci_lbasis _ _ _ _ _ (proj1 HI1)), (ci_lbasis _ _ _ _ _ (proj1 HI2)). reflexivity. }
    clear - Hb Len. revert Len Hb. generalize (c_basis (t_im t1)) (c_basis (t_im t2)).
    induction l as [|x l IH]; intros [|y l'] Len Hb; try discriminate; [reflexivity|]. cbn in Hb, Len.
    apply andb_true_iff in Hb. destruct Hb as [H1 H2]. apply Nat.eqb_eq in H1. f_equal; [assumption|].
    apply IH; [lia|assumption]. }
  assert (Loop1 := cycle_forever O L R RL RS _ (rhs_of p) n t1 s1 t2 s2 Kok Hok HI1 V1 Hn E2 Eb (Heq _ _ Hs)).
  assert (Loop : forall f, simplex_loop O R f (non_artificial p) t0 s0 = Fuel).
  { intros f. assert (F : simplex_loop O R (n0 + f) (non_artificial p) t0 s0 = Fuel)
      by now rewrite (steps_loop O R _ f n0 t0 s0 t1 s1 E1).
    destruct (simplex_loop O R f (non_artificial p) t0 s0) eqn:C; try reflexivity; exfalso;
      rewrite (loop_mono O R _ f (n0 + f)) in F by (try lia; congruence); congruence. }
  assert (Two : solve O R fuel p = solve_two_phase O R fuel p).
  { unfold solve. destruct (p_init p) eqn:Ei; try reflexivity. exfalso. now apply (NF pivots). }
  rewrite Two. unfold solve_two_phase. destruct fuel as [|fuel].
  - unfold compute_bfs. unfold compute_bfs in Ec. destruct (p_init p) as [|real|real].
    + destruct (new_fully O p) as [tt2| |]; cbn [bind] in *; try discriminate.
      unfold phase_one in *. destruct (r_new R (fully p) tt2); cbn [bind] in *; try discriminate. reflexivity.
    + destruct (new_partially O p real) as [[tt2 arts]| |]; cbn [bind] in *; try discriminate.
      unfold phase_one in *. destruct (r_new R _ tt2); cbn [bind] in *; try discriminate. reflexivity.
    + exfalso. now apply (NF real).
  - rewrite (compute_bfs_mono O R p 1 (S fuel)) by (try lia; congruence). rewrite Ec. cbn [bind]. rewrite Et. cbn [bind].
    unfold phase_two. rewrite Es. cbn [bind]. rewrite Loop. reflexivity.
Qed.
