(** * Runs that do not end stay in degenerate vertices *)
From Verif Require Export Reach.

Section Stall.
Variable O : BIOps.
Variable L : BILaws O.
Variable R : Rule O.
Variable RL : RuleLaws L R.
Variables (p p' : provider) (ph : phase) (k : kind).
Hypothesis Pok : provider_ok p.
Local Notation m := (k_rows k).
Local Notation bas t := (c_basis (t_im t)).
Local Notation bv t := (c_b (t_im t)).

(** the states of a loop that runs out of fuel *)
Lemma loop_chain : ok_change L m -> forall fuel t s, reach O R p ph p' k t (Some s) -> simplex_loop O R fuel k t s = Fuel ->
  exists (T : nat -> tableau O), T 0%nat = t /\ (forall i, (i <= fuel)%nat -> exists s, reach O R p ph p' k (T i) (Some s)) /\
    forall i, (i < fuel)%nat -> exists s s', reach O R p ph p' k (T i) (Some s) /\ simplex_step O R k (T i) s = Ok (StepPivot O R (T (S i)) s').
Proof.
  intros Hok. induction fuel as [|fuel IH]; intros t s H E.
  - exists (fun _ => t). split; [reflexivity|]. split; [|intros; lia]. intros i _. now exists s.
  - cbn [simplex_loop] in E. destruct (reach_reach_inv O L R RL _ _ _ _ _ _ Pok H) as (Kok & HI & Vs & _).
    pose proof (step_spec O L R RL k (rhs_of p') t s Kok HI Vs) as SP.
    destruct (simplex_step O R k t s) as [[| |t' s']| |] eqn:Est; cbn [bind] in E; try discriminate.
    2:{ exfalso. now apply SP. }
    pose proof (reach_step O R p ph p' k t s t' s' H Est) as H'. destruct (IH t' s' H' E) as (T & T0 & Ti & Ts).
    exists (fun i => match i with 0%nat => t | S i => T i end). split; [reflexivity|]. split.
    + intros [|i] Li; [now exists s|apply Ti; lia].
    + intros [|i] Li; [|apply Ts; lia]. rewrite T0. now exists s, s'.
Qed.

(** a step that leaves the objective value as it is, from a degenerate vertex *)
Definition stalling (t : tableau O) (s : r_state R) : Prop :=
  exists t' s', simplex_step O R k t s = Ok (StepPivot O R t' s') /\ objective_value t' = objective_value t.
Lemma stalling_zero t s : reach O R p ph p' k t (Some s) -> stalling t s -> exists r, (r < m)%nat /\ nthq (bv t) r = 0.
Proof.
  intros H (t' & s' & E & OE). destruct (reach_reach_inv O L R RL _ _ _ _ _ _ Pok H) as (Kok & HI & Vs & _).
  pose proof (step_spec O L R RL k (rhs_of p') t s Kok HI Vs) as SP. rewrite E in SP.
  destruct SP as (_ & _ & q & r & w & s0 & D & _). destruct D as (_ & Hneg & Lr & Hw & _ & _ & _ & _ & Eo).
  exists r. split; [assumption|]. unfold objective_value in OE. rewrite Eo in OE.
  assert (Z : relative_cost k t q * (nthq (bv t) r / w r) = 0) by qlra.
  apply Qc_mul_eq0 in Z. destruct Z as [Z|Z]; [rewrite Z in Hneg; exfalso; qlra|].
  rewrite <- (Qc_div_mul (nthq (bv t) r) (w r)) by now apply Qc_pos_neq0. rewrite Z. ring.
Qed.
Lemma loop_stalls fuel t s : ok_change L m -> reach O R p ph p' k t (Some s) -> (k_cols k ^ m <= fuel)%nat -> simplex_loop O R fuel k t s = Fuel ->
  exists t1 s1, reach O R p ph p' k t1 (Some s1) /\ stalling t1 s1.
Proof.
  intros Hok H Hf E. destruct (loop_chain Hok fuel t s H E) as (T & T0 & Ti & Ts).
  assert (Inv : forall i, (i <= fuel)%nat -> tab_inv L k (rhs_of p') (T i)).
  { intros i Li. destruct (Ti i Li) as (s1 & H1). now destruct (reach_reach_inv O L R RL _ _ _ _ _ _ Pok H1) as (_ & HI & _). }
  assert (Len : forall i, (i <= fuel)%nat -> length (bas (T i)) = m).
  { intros i Li. apply (ci_lbasis _ _ _ _ _ (proj1 (Inv i Li))). }
  assert (Rng : forall i, (i <= fuel)%nat -> forall x, In x (bas (T i)) -> (x < k_cols k)%nat).
  { intros i Li x Hx. apply In_bcol in Hx. destruct Hx as (r & Lr & <-). rewrite Len in Lr by assumption.
    now apply (ci_range _ _ _ _ _ (proj1 (Inv i Li))). }
  destruct (pigeonhole (fun i => code (k_cols k) (bas (T i))) (k_cols k ^ m)) as (i & j & Lij & Eij).
  { intros i Li. rewrite <- (Len i) by lia. apply code_lt. apply Rng. lia. }
  apply code_inj in Eij; [|rewrite !Len by lia; reflexivity|apply Rng; lia|apply Rng; lia].
  assert (Mono : forall d, (i + d <= fuel)%nat -> objective_value (T (i + d)%nat) <= objective_value (T i) /\
     ((0 < d)%nat -> objective_value (T (i + d)%nat) <= objective_value (T (S i)))).
  { induction d as [|d IH]; intros Ld.
    - rewrite Nat.add_0_r. split; [apply Qcle_refl|lia].
    - destruct (Ts (i + d)%nat) as (s1 & s2 & H1 & E1); [lia|]. destruct (reach_step_objective O L R RL _ _ _ _ _ _ _ _ Pok H1 E1) as [Le _].
      destruct IH as [A B]; [lia|]. rewrite Nat.add_succ_r. split; [now apply Qcle_trans with (objective_value (T (i + d)%nat))|]. intros _.
      destruct d as [|d]; [rewrite Nat.add_0_r; apply Qcle_refl|]. apply Qcle_trans with (objective_value (T (i + S d)%nat)); [assumption|apply B; lia]. }
  destruct (Ts i) as (s1 & s2 & H1 & E1); [lia|]. exists (T i), s1. split; [assumption|]. exists (T (S i)), s2. split; [assumption|].
  apply Qcle_antisym; [apply (reach_step_objective O L R RL _ _ _ _ _ _ _ _ Pok H1 E1)|].
  destruct (Mono (j - i)%nat) as [_ B]; [lia|]. replace (i + (j - i))%nat with j in B by lia.
  destruct (basis_values O L k (rhs_of p') (T i) (T j)) as [_ OE]; [apply Inv; lia|apply Inv; lia|now symmetry|]. rewrite <- OE. apply B. lia.
Qed.
End Stall.

(** ** Problems that are nowhere degenerate *)
Lemma sum_nonzero n f : sum n f <> 0 -> exists i, (i < n)%nat /\ f i <> 0.
Proof.
  induction n as [|n IH]; intros H; [now contradiction H|]. cbn [sum] in H. destruct (Qc_eq_dec (f n) 0) as [Z|Z]; [|exists n; split; [lia|assumption]].
  destruct IH as (i & Li & Hi); [intros E; apply H; rewrite E, Z; ring|]. exists i. split; [lia|assumption].
Qed.
Lemma NoDup_both {A} (a b : list A) : NoDup a -> NoDup b -> (forall x, In x a -> ~ In x b) -> NoDup (a ++ b).
Proof.
  induction 1 as [|x a Nx Na IH]; intros Nb D; [assumption|]. cbn [app]. constructor.
  - intros C. apply in_app_or in C. destruct C as [C|C]; [contradiction|]. apply (D x); [now left|assumption].
  - apply IH; [assumption|]. intros y Hy. apply D. now right.
Qed.
Lemma filter_length_le' {A} (f : A -> bool) l : (length (filter f l) <= length l)%nat.
Proof. induction l as [|x l IH]; [reflexivity|]. cbn [filter length]. destruct (f x); cbn [length]; lia. Qed.
Lemma filter_all {A} (f : A -> bool) l : (length l <= length (filter f l))%nat -> forall x, In x l -> f x = true.
Proof.
  induction l as [|y l IH]; intros H x Hx; [contradiction|]. cbn [filter length] in H. pose proof (filter_length_le' f l).
  destruct (f y) eqn:Ey; cbn [length] in H; [|lia]. destruct Hx as [<-|Hx]; [assumption|]. apply IH; [lia|assumption].
Qed.

Section Nondegenerate.
Variable p : provider.
Hypothesis ND : nondegenerate p.
Local Notation m := (p_rows p).
Local Notation n := (p_cols p).
(** columns of the problem, followed by the unit columns *)
Definition extended (i c : nat) : Qc := if Nat.ltb c n then den (p_col p c) i else delta (c - n) i.
Lemma many_columns (basis : list nat) (v : vec) m' : (forall r, (r < m')%nat -> (bcol basis r < n + m)%nat) -> (forall r, (r < m')%nat -> 0 <= v r) ->
  (forall i, (i < m)%nat -> sum m' (fun r => extended i (bcol basis r) * v r) = nthq (p_rhs p) i) ->
  (m <= length (filter (fun r => negb (qzero (v r))) (seq 0 m')))%nat.
Proof.
  intros RG NN E. set (z := spread m' basis v).
  assert (Z0 : forall c, 0 <= z c) by (intros c; now apply spread_nonneg).
  pose proof (ND z (fun i => z (n + i)%nat) Z0 (fun i => Z0 _)) as H.
  eapply Nat.le_trans; [apply H|].
  - intros i Li. rewrite <- (E i Li), <- (sum_spread m' (n + m) basis v (extended i)) by assumption. fold z.
    rewrite sum_add. f_equal.
    + apply sum_ext. intros j Lj. unfold extended. apply Nat.ltb_lt in Lj. now rewrite Lj.
    + rewrite (sum_ext m _ (fun c => delta i c * z (n + c)%nat)); [now rewrite (sum_delta_l m i (fun c => z (n + c)%nat))|].
      intros c _. unfold extended. destruct (Nat.ltb_spec (n + c) n); [lia|]. replace (n + c - n)%nat with c by lia. now rewrite delta_sym.
  - unfold nonzeros. set (A := filter (fun j => negb (qzero (z j))) (seq 0 n)). set (B := filter (fun i => negb (qzero (z (n + i)%nat))) (seq 0 m)).
    set (V := filter (fun r => negb (qzero (v r))) (seq 0 m')).
    assert (NZ : forall c, z c <> 0 -> In c (map (bcol basis) V)).
    { intros c Hc. unfold z, spread in Hc. apply sum_nonzero in Hc. destruct Hc as (r & Lr & Hr). apply in_map_iff. exists r. split.
      - destruct (Nat.eq_dec (bcol basis r) c) as [|Ne]; [assumption|]. exfalso. apply Hr. rewrite delta_diff by assumption. ring.
      - apply filter_In. split; [apply in_seq; lia|]. apply negb_true_iff. destruct (qzero (v r)) eqn:Q; [|reflexivity]. exfalso. apply Hr. qb. rewrite Q. ring. }
    rewrite <- (map_length (Nat.add n) B), <- app_length, <- (map_length (bcol basis) V). apply NoDup_incl_length.
    + apply NoDup_both; [apply NoDup_filter, seq_NoDup|apply FinFun.Injective_map_NoDup; [intros a b; lia|apply NoDup_filter, seq_NoDup]|].
      intros c Ha Hb. apply filter_In in Ha. destruct Ha as [Ha _]. apply in_seq in Ha. apply in_map_iff in Hb. destruct Hb as (b & <- & _). lia.
    + intros c Hc. apply NZ. apply in_app_or in Hc. destruct Hc as [Hc|Hc].
      * apply filter_In in Hc. destruct Hc as [_ Hc]. apply negb_true_iff in Hc. intros Z. rewrite Z in Hc. discriminate.
      * apply in_map_iff in Hc. destruct Hc as (b & <- & Hc). apply filter_In in Hc. destruct Hc as [_ Hc]. apply negb_true_iff in Hc. intros Z. rewrite Z in Hc. discriminate.
Qed.

Variable O : BIOps.
Variable L : BILaws O.
Variable R : Rule O.
Variable RL : RuleLaws L R.
Hypothesis Pok : provider_ok p.
Lemma nondegenerate_positive ph p' k t s : reach O R p ph p' k t s -> forall r, (r < k_rows k)%nat -> 0 < nthq (c_b (t_im t)) r.
Proof.
  intros H. destruct (reach_reach_inv O L R RL _ _ _ _ _ _ Pok H) as (Kok & HI & _ & Hph). pose proof (proj1 HI) as CI.
  assert (Done : (p_rows p <= length (filter (fun r => negb (qzero (nthq (c_b (t_im t)) r))) (seq 0 (k_rows k))))%nat -> (k_rows k <= p_rows p)%nat ->
     forall r, (r < k_rows k)%nat -> 0 < nthq (c_b (t_im t)) r).
  { intros Len Le r Lr. pose proof (ci_nonneg _ _ _ _ _ CI r Lr) as NN.
    assert (F : negb (qzero (nthq (c_b (t_im t)) r)) = true).
    { apply (filter_all (fun r => negb (qzero (nthq (c_b (t_im t)) r))) (seq 0 (k_rows k))); [rewrite seq_length; lia|apply in_seq; lia]. }
    apply negb_true_iff in F. qb. apply Qcle_lt_or_eq in NN. destruct NN as [NN|NN]; [assumption|]. now rewrite <- NN in F. }
  destruct ph.
  - destruct Hph as (-> & c2r & AK & _). apply Done; [|now rewrite (ak_rows _ _ _ AK)].
    set (code := fun c => if Nat.ltb c (k_art k) then (n + c2r c)%nat else (c - k_art k)%nat).
    assert (Bc : forall r, (r < k_rows k)%nat -> bcol (map code (c_basis (t_im t))) r = code (bcol (c_basis (t_im t)) r)).
    { intros r Lr. unfold bcol. rewrite (nth_indep _ 0%nat (code 0%nat)) by (rewrite map_length, (ci_lbasis _ _ _ _ _ CI); assumption). now rewrite map_nth. }
    apply (many_columns (map code (c_basis (t_im t))) (nthq (c_b (t_im t))) (k_rows k)).
    + intros r Lr. rewrite Bc by assumption. pose proof (ci_range _ _ _ _ _ CI r Lr) as Rg. rewrite (ak_cols _ _ _ AK) in Rg. unfold code.
      destruct (Nat.ltb_spec (bcol (c_basis (t_im t)) r) (k_art k)) as [La|La]; [|lia]. destruct (ak_acol _ _ _ AK _ La). lia.
    + apply (ci_nonneg _ _ _ _ _ CI).
    + intros i Li. change (nthq (p_rhs p) i) with (rhs_of p i). rewrite <- (ci_feas _ _ _ _ _ CI i) by now rewrite (ak_rows _ _ _ AK).
      apply sum_ext. intros r Lr. rewrite Bc by assumption. f_equal. unfold bmat, kA, extended, code.
      pose proof (ci_range _ _ _ _ _ CI r Lr) as Rg. rewrite (ak_cols _ _ _ AK) in Rg.
      destruct (Nat.ltb_spec (bcol (c_basis (t_im t)) r) (k_art k)) as [La|La].
      * destruct (ak_acol _ _ _ AK _ La) as [-> Lc]. destruct (Nat.ltb_spec (n + c2r (bcol (c_basis (t_im t)) r)) n); [lia|].
        replace (n + c2r (bcol (c_basis (t_im t)) r) - n)%nat with (c2r (bcol (c_basis (t_im t)) r)) by lia. symmetry. apply den_sbasis.
      * destruct (Nat.ltb_spec (bcol (c_basis (t_im t)) r - k_art k) n); [|lia].
        rewrite <- (ak_rcol _ _ _ AK) by assumption. now replace (k_art k + (bcol (c_basis (t_im t)) r - k_art k))%nat with (bcol (c_basis (t_im t)) r) by lia.
  - destruct Hph as (-> & Hp). cbn [non_artificial k_rows k_cols k_col] in *.
    assert (Cols : p_cols p' = n) by (destruct Hp as [->|(rows & _ & _ & _ & ->)]; reflexivity).
    assert (Rg : forall r, (r < p_rows p')%nat -> (bcol (c_basis (t_im t)) r < n)%nat) by (intros r Lr; rewrite <- Cols; now apply (ci_range _ _ _ _ _ CI)).
    assert (Feas : feasible p (bfs (non_artificial p') t)).
    { assert (F' : feasible p' (bfs (non_artificial p') t)) by exact (bfs_feasible O L _ _ t HI).
      destruct Hp as [->|(rows & _ & Red & Inc & E)]; [exact F'|]. apply (remove_rows_feasible p rows _ Pok Inc Red). now rewrite <- E. }
    pose proof (many_columns (c_basis (t_im t)) (nthq (c_b (t_im t))) (p_rows p')) as MC.
    assert (Len : (p_rows p <= length (filter (fun r => negb (qzero (nthq (c_b (t_im t)) r))) (seq 0 (p_rows p'))))%nat).
    { apply MC.
      - intros r Lr. specialize (Rg r Lr). lia.
      - apply (ci_nonneg _ _ _ _ _ CI).
      - intros i Li. destruct Feas as [F _]. rewrite <- (F i Li). unfold bfs. cbn [non_artificial k_rows].
        rewrite (sum_spread (p_rows p') n (c_basis (t_im t)) (nthq (c_b (t_im t))) (fun j => den (p_col p j) i)) by assumption.
        apply sum_ext. intros r Lr. f_equal. unfold extended. specialize (Rg r Lr). apply Nat.ltb_lt in Rg. now rewrite Rg. }
    apply Done; [assumption|]. destruct Hp as [->|(rows & _ & _ & _ & ->)]; [lia|]. cbn [remove_rows p_rows]. lia.
Qed.
End Nondegenerate.
