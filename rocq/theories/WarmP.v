(** * Starting from a chosen basis: proofs *)
From Verif Require Export Warm SpecWarm LuConv SolverP.
Local Open Scope Qc_scope.

Lemma start_spec r n fuel p basis : well_sized p -> feasible_basis p basis ->
  match start_from r n fuel p basis with
  | Ok res => result_ok p res
  | Panic => ~ (ok_invert (laws r) (p_rows p) /\ ok_change (laws r) (p_rows p))
  | Fuel => ok_invert (laws r) (p_rows p) -> exists t s, tab_inv (laws r) (non_artificial p) (rhs_of p) t /\
      r_new (rule n (ops r)) (non_artificial p) t = Ok s /\ simplex_loop (ops r) (rule n (ops r)) fuel (non_artificial p) t s = Fuel
  end.
Proof.
  intros [Sl Sc] (N & (Lb & Rb & I) & Nn). unfold start_from.
  pose proof (from_basis_core (ops r) (laws r) p basis Sl Sc Lb Rb (ex_intro _ N (conj I Nn))) as FS.
  destruct (from_basis (ops r) basis p) as [c| |]; cbn [bind]; [|tauto|tauto].
  destruct FS as [HC Eb].
  assert (HI : tab_inv (laws r) (non_artificial p) (rhs_of p) (mk_tab c basis)).
  { split; [exact HC|]. cbn [t_im t_cols]. intros j. now rewrite Eb. }
  assert (Kp : kind_ok (non_artificial p)) by (apply non_artificial_ok; exact Sc).
  pose proof (phase_two_spec (ops r) (laws r) _ (rule_laws n (ops r) (laws r)) fuel p _ Kp HI) as PT.
  destruct (phase_two (ops r) (rule n (ops r)) fuel (non_artificial p) (mk_tab c basis)) as [res| |]; [exact PT|tauto|].
  intros _. destruct PT as (s & Es & EL). eauto.
Qed.
Lemma start_optimum r n fuel p basis x : well_sized p -> feasible_basis p basis ->
  start_from r n fuel p basis = Ok (FiniteOptimum x) -> optimal p (den x) /\ wfs (p_cols p) x.
Proof. intros S F E. pose proof (start_spec r n fuel p basis S F) as H. rewrite E in H. apply H. Qed.
Lemma start_vertex r n fuel p basis x : well_sized p -> feasible_basis p basis ->
  start_from r n fuel p basis = Ok (FiniteOptimum x) -> vertex p (den x) /\ (length x <= p_rows p)%nat.
Proof. intros S F E. pose proof (start_spec r n fuel p basis S F) as H. rewrite E in H. apply H. Qed.
Lemma start_unbounded r n fuel p basis : well_sized p -> feasible_basis p basis ->
  start_from r n fuel p basis = Ok Unbounded -> unbounded p.
Proof. intros S F E. pose proof (start_spec r n fuel p basis S F) as H. rewrite E in H. exact H. Qed.
Lemma start_not_infeasible r n fuel p basis : start_from r n fuel p basis <> Ok Infeasible.
Proof.
  unfold start_from, phase_two. destruct (from_basis (ops r) basis p) as [c| |]; cbn [bind]; try discriminate.
  destruct (r_new _ _ _) as [s| |]; cbn [bind]; try discriminate.
  destruct (simplex_loop _ _ _ _ _ _) as [[t|t]| |]; cbn [bind]; discriminate.
Qed.
Definition start_sizes (r : representation) (p : provider) : Prop := (match r with UseLU => 2 | UseRows => 1 end <= p_rows p)%nat.
Lemma start_sizes_ok r p : start_sizes r p -> ok_invert (laws r) (p_rows p) /\ ok_change (laws r) (p_rows p).
Proof. destruct r; unfold start_sizes; cbn; intros; split; lia || exact I. Qed.
Lemma start_no_panic r n fuel p basis : well_sized p -> feasible_basis p basis -> start_sizes r p ->
  start_from r n fuel p basis <> Panic.
Proof.
  intros S F Z E. pose proof (start_spec r n fuel p basis S F) as H. rewrite E in H. apply H. now apply start_sizes_ok.
Qed.
Lemma start_terminates r p basis : well_sized p -> feasible_basis p basis -> start_sizes r p ->
  exists res, forall fuel, (p_cols p ^ p_rows p <= fuel)%nat -> start_from r FirstProfitable fuel p basis = Ok res.
Proof.
  intros S F Z. destruct (start_sizes_ok r p Z) as [O1 O2].
  assert (Kp : kind_ok (non_artificial p)) by (apply non_artificial_ok; apply S).
  assert (NF : start_from r FirstProfitable (p_cols p ^ p_rows p) p basis <> Fuel).
  { intros E. pose proof (start_spec r FirstProfitable (p_cols p ^ p_rows p) p basis S F) as H. rewrite E in H.
    destruct (H O1) as (t & s & HI & _ & EL). destruct s. revert EL.
    apply (first_profitable_terminates (ops r) (laws r) (non_artificial p) (rhs_of p) Kp); try assumption. reflexivity. }
  destruct (start_from r FirstProfitable (p_cols p ^ p_rows p) p basis) as [res| |] eqn:E; [|now apply start_no_panic in E|congruence].
  exists res. intros fuel Le. rewrite <- E. unfold start_from in *.
  destruct (from_basis (ops r) basis p) as [c| |]; cbn [bind] in *; try reflexivity.
  apply phase_two_mono; [assumption|]. rewrite E. discriminate.
Qed.

(** whatever is asked for: an answer is given only when the chosen columns have an inverse *)
Lemma start_only_bases r n fuel p basis res : well_sized p -> length basis = p_rows p ->
  start_from r n fuel p basis = Ok res -> (forall j, In j basis -> (j < p_cols p)%nat) /\ exists N, basis_of p basis N.
Proof.
  intros [Sl Sc] Lb E. unfold start_from, from_basis in E.
  destruct (basis_columns_of (non_artificial p) basis) as [cols| |] eqn:Ec; cbn [bind] in E; try discriminate E.
  assert (Rb : forall j, In j basis -> (j < p_cols p)%nat).
  { unfold basis_columns_of in Ec. clear - Ec. revert cols Ec. induction basis as [|a basis IH]; intros cols Ec j Hj; [destruct Hj|].
    cbn [mapM] in Ec. cbn [non_artificial k_cols k_col] in *. destruct (Nat.ltb_spec a (p_cols p)) as [La|La]; [|discriminate Ec]. cbn [bind] in Ec.
    destruct (mapM _ basis) as [ys| |] eqn:Em; try discriminate Ec. destruct Hj as [<-|Hj]; [assumption|]. now apply (IH ys). }
  split; [exact Rb|].
  rewrite (basis_columns_of_spec (non_artificial p) basis) in Ec.
  2:{ intros r0 Lr. apply Rb. now apply nth_In. }
  injection Ec as <-.
  destruct (bi_invert (ops r) (map (p_col p) basis)) as [b| |] eqn:Eb; cbn [bind] in E; try discriminate E.
  assert (Wcols : Forall (wfs (p_rows p)) (map (p_col p) basis)).
  { apply Forall_forall. intros x Hx. apply in_map_iff in Hx. destruct Hx as (j & <- & Hj). apply Sc. now apply Rb. }
  assert (exists N, is_inverse (p_rows p) N (cols_mat (map (p_col p) basis))) as [N I].
  { destruct r; cbn [ops bi_invert LU BIR] in Eb; [apply (lu_invert_returns _ _ b)|apply (bir_invert_returns _ _ b)]; try assumption; now rewrite map_length. }
  exists N. split; [assumption|]. split; [assumption|]. apply inverse_ext with N (cols_mat (map (p_col p) basis)); [apply meq_refl| |assumption].
  intros i q Li Lq. apply (cols_mat_map (non_artificial p)). now rewrite Lb.
Qed.
Lemma basis_independent p basis N : basis_of p basis N -> independent_columns p basis.
Proof.
  intros (Lb & _ & I) c Z r Lr. rewrite Lb in *. transitivity (sum (p_rows p) (fun i => N r i * 0)).
  - apply (inverse_solve (p_rows p) N (chosen p basis)) with (b := fun _ => 0); assumption.
  - apply sum_zero. intros; ring.
Qed.
Lemma start_only_independent r n fuel p basis res : well_sized p -> length basis = p_rows p ->
  start_from r n fuel p basis = Ok res ->
  (forall j, In j basis -> (j < p_cols p)%nat) /\ independent_columns p basis /\ exists N, basis_of p basis N.
Proof.
  intros S Lb E. destruct (start_only_bases r n fuel p basis res S Lb E) as (A & N & H).
  split; [assumption|]. split; [now apply (basis_independent p basis N)|now exists N].
Qed.
