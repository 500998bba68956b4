(** * Tableau: the ratio test and what a basis change preserves *)
From Verif Require Export CarryP.

(** ** Ratio test *)
Section Ratio.
Variable O : BIOps.

Definition ratio (c : carry O) (col : svec) (i : nat) : Qc := nthq (c_b c) i / den col i.

(** [i] beats or equals every row in [P] *)
Definition best_row (c : carry O) (col : svec) (P : nat -> Prop) (p : nat) : Prop :=
  P p /\ 0 < den col p /\
  forall i, P i -> 0 < den col i ->
    ratio c col p < ratio c col i \/
    (ratio c col p = ratio c col i /\ (bcol (c_basis c) p <= bcol (c_basis c) i)%nat).

Definition scan_state (c : carry O) (col : svec) (P : nat -> Prop) (acc : option (nat * Qc * nat)) :=
  match acc with
  | None => forall i, P i -> den col i <= 0
  | Some (i, r, l) => best_row c col P i /\ r = ratio c col i /\ l = bcol (c_basis c) i
  end.

Lemma scan_step m (c : carry O) col (P : nat -> Prop) acc i v :
  wfs m col -> length (c_b c) = m -> length (c_basis c) = m ->
  In (i, v) col -> (forall j, P j -> (j < m)%nat) ->
  scan_state c col P acc ->
  exists acc', ratio_step O c acc (i, v) = Ok acc' /\ scan_state c col (fun j => P j \/ j = i) acc'.
Proof.
  intros W Lb Lc Hin HP S. destruct (den_In 0 m col i v W Hin) as (Hd & Nz & Li).
  unfold ratio_step. destruct (qpos v) eqn:Ep; qb.
  - rewrite index_nthq by lia. simpl. rewrite (index_Ok _ _ 0%nat) by lia. simpl.
    assert (Hr : nthq (c_b c) i / v = ratio c col i) by (unfold ratio; now rewrite Hd).
    fold (bcol (c_basis c) i). rewrite Hr.
    destruct acc as [[[mi mr] ml]|]; simpl in S.
    + destruct S as ((S1 & S2 & S3) & -> & ->).
      destruct (qeqb (ratio c col i) (ratio c col mi) &&
                Nat.ltb (bcol (c_basis c) i) (bcol (c_basis c) mi)) eqn:E1.
      * apply andb_true_iff in E1. destruct E1 as [E1 E2]. qb. apply Nat.ltb_lt in E2.
        eexists. split; [reflexivity|]. simpl. repeat split; try (now right || congruence).
        intros j [Pj| ->] Hj.
        -- destruct (S3 j Pj Hj) as [A|[A B]]; [left; congruence|right; split; [congruence|lia]].
        -- right. split; [reflexivity|lia].
      * destruct (qltb (ratio c col i) (ratio c col mi)) eqn:E3; qb.
        -- eexists. split; [reflexivity|]. simpl. repeat split; try (now right || congruence).
           intros j [Pj| ->] Hj.
           ++ left. destruct (S3 j Pj Hj) as [A|[A B]]; qlra.
           ++ right. split; [reflexivity|lia].
        -- eexists. split; [reflexivity|]. simpl. repeat split; try (now left || assumption).
           intros j [Pj| ->] Hj; [now apply S3|].
           apply andb_false_iff in E1. destruct E1 as [E1|E1].
           ++ qb. left. apply Qc_le_neq_lt; [assumption|congruence].
           ++ apply Nat.ltb_ge in E1. apply Qcle_lt_or_eq in E3. destruct E3 as [E3|E3].
              ** now left.
              ** right. split; [now symmetry|assumption].
    + eexists. split; [reflexivity|]. simpl. repeat split; try (now right || congruence).
      intros j [Pj| ->] Hj.
      * specialize (S j Pj). qlra.
      * right. split; [reflexivity|lia].
  - eexists. split; [reflexivity|].
    destruct acc as [[[mi mr] ml]|]; simpl in *.
    + destruct S as ((S1 & S2 & S3) & -> & ->). repeat split; try (now left || assumption).
      intros j [Pj| ->] Hj; [now apply S3|]. qlra.
    + intros j [Pj| ->]; [now apply S|]. now rewrite Hd.
Qed.

Lemma scan_fold m (c : carry O) col :
  wfs m col -> length (c_b c) = m -> length (c_basis c) = m ->
  forall l (P : nat -> Prop) acc, (forall e, In e l -> In e col) -> (forall j, P j -> (j < m)%nat) ->
  scan_state c col P acc ->
  exists acc', foldM (ratio_step O c) l acc = Ok acc' /\
    scan_state c col (fun j => P j \/ In j (map fst l)) acc'.
Proof.
  intros W Lb Lc. induction l as [|[i v] l IH]; intros P acc Sub HP S; cbn [foldM map].
  - exists acc. split; [reflexivity|].
    destruct acc as [[[mi mr] ml]|]; simpl in *.
    + destruct S as ((S1 & S2 & S3) & E1 & E2). repeat split; try (now left || assumption).
      intros j [Pj|[]] Hj. now apply S3.
    + intros j [Pj|[]]. now apply S.
  - destruct (scan_step m c col P acc i v) as (acc1 & E1 & S1); try assumption.
    { apply Sub. now left. }
    rewrite E1. cbn [bind]. destruct (IH (fun j => P j \/ j = i) acc1) as (acc2 & E2 & S2).
    + intros e He. apply Sub. now right.
    + intros j [Pj| ->]; [now apply HP|]. apply (wfs_In_lt m col i v W). apply Sub. now left.
    + assumption.
    + exists acc2. split; [assumption|].
      destruct acc2 as [[[mi mr] ml]|]; simpl in *.
      * destruct S2 as ((A1 & A2 & A3) & B1 & B2). repeat split; try assumption.
        -- destruct A1 as [[A1|A1]|A1]; auto.
        -- intros j Pj Hj. apply A3; [|assumption]. destruct Pj as [Pj|[Pj|Pj]]; auto.
      * intros j Pj. apply S2. destruct Pj as [Pj|[Pj|Pj]]; auto.
Qed.

(** The ratio test never fails; it finds the row with the smallest ratio (and among those the one
    whose basic variable has the smallest index), or there is no positive entry. *)
Lemma select_row_spec m (t : tableau O) col :
  wfs m col -> length (c_b (t_im t)) = m -> length (c_basis (t_im t)) = m ->
  exists r, select_row t col = Ok r /\
    match r with
    | Some p => best_row (t_im t) col (fun i => (i < m)%nat) p
    | None => forall i, (i < m)%nat -> den col i <= 0
    end.
Proof.
  intros W Lb Lc. unfold select_row.
  destruct (scan_fold m (t_im t) col W Lb Lc col (fun _ => False) None) as (acc & E & S).
  - auto.
  - tauto.
  - simpl. tauto.
  - rewrite E. simpl. eexists. split; [reflexivity|].
    assert (Cov : forall i, den col i <> 0 -> In i (map fst col)).
    { intros i Hi. destruct (den_nonzero_In col i Hi) as [v Hv].
      change i with (fst (i, v)). now apply in_map. }
    destruct acc as [[[mi mr] ml]|]; simpl in *.
    + destruct S as ((A1 & A2 & A3) & _ & _). destruct A1 as [[]|A1].
      repeat split; try assumption.
      * apply in_map_iff in A1. destruct A1 as ([i v] & E1 & H). simpl in E1. subst i.
        now apply (wfs_In_lt m col mi v).
      * intros i Li Hi. apply A3; [|assumption]. right. apply Cov. now apply Qc_pos_neq0.
    + intros i Li. destruct (Qc_dec (den col i) 0) as [Z|Z].
      * rewrite Z. apply Qcle_refl.
      * apply S. right. now apply Cov.
Qed.

End Ratio.
Arguments ratio {O}.
Arguments best_row {O}.

(** ** Basis change *)
Section Change.
Variable O : BIOps.
Variable L : BILaws O.

Definition info_ok (k : kind) (t : tableau O) (cc : cci O) (p q : nat) (info : change_info) : Prop :=
  i_row info = p /\ i_col info = q /\ i_leaving info = bcol (c_basis (t_im t)) p /\
  i_before info = cci_col O cc /\ wfs (k_rows k) (i_work info) /\ wfs (k_rows k) (i_binv_row info) /\
  exists N, is_inverse (k_rows k) N (bmat k (c_basis (t_im t))) /\
    (forall j, (j < k_rows k)%nat ->
       den (i_work info) j = sum (k_rows k) (fun r => den (cci_col O cc) r * N r j)) /\
    (forall j, (j < k_rows k)%nat -> den (i_binv_row info) j = N p j / den (cci_col O cc) p).

Lemma basis_columns_of_spec k basis :
  (forall r, (r < length basis)%nat -> (bcol basis r < k_cols k)%nat) ->
  basis_columns_of k basis = Ok (map (k_col k) basis).
Proof.
  unfold basis_columns_of, bcol. induction basis as [|j basis IH]; intros H; simpl; [reflexivity|].
  pose proof (H 0%nat ltac:(simpl; lia)) as H0. simpl in H0. apply Nat.ltb_lt in H0. rewrite H0. simpl.
  rewrite IH; [reflexivity|]. intros r Lr. apply (H (S r)). simpl. lia.
Qed.

Lemma cols_mat_map k basis i r :
  (r < length basis)%nat -> cols_mat (map (k_col k) basis) i r = bmat k basis i r.
Proof.
  intros Lr. unfold cols_mat, bmat, kA, bcol.
  rewrite (nth_indep _ [] (k_col k 0%nat)) by now rewrite map_length. now rewrite map_nth.
Qed.

Lemma bmat_upd k basis p q i r :
  (p < length basis)%nat ->
  bmat k (upd basis p q) i r = set_col (bmat k basis) p (fun i => kA k i q) i r.
Proof.
  intros Lp. unfold bmat, set_col, bcol. rewrite upd_nth by assumption.
  now destruct (Nat.eqb r p).
Qed.

Lemma den_neq_nil l i : den l i <> 0 -> l <> [].
Proof. intros H ->. now apply H. Qed.

(** what is needed of the chosen row so that the basic solution stays non-negative *)
Definition keeps_nonneg (m : nat) (b : list Qc) (w : vec) (p : nat) : Prop :=
  0 <= nthq b p / w p /\
  forall i, (i < m)%nat -> i <> p -> 0 <= nthq b i - w i * (nthq b p / w p).

Theorem change_spec k rhs (t : tableau O) p q cc :
  kind_ok k -> tab_inv L k rhs t -> (q < k_cols k)%nat -> generate_column k t q = Ok cc ->
  (p < k_rows k)%nat -> den (cci_col O cc) p <> 0 ->
  keeps_nonneg (k_rows k) (c_b (t_im t)) (den (cci_col O cc)) p ->
  (forall t' info, bring_into_basis k t q p cc (relative_cost k t q) = Ok (t', info) ->
     tab_inv L k rhs t' /\ info_ok k t cc p q info /\
     c_basis (t_im t') = upd (c_basis (t_im t)) p q /\
     (forall i, nthq (c_b (t_im t')) i =
        if Nat.eqb i p then nthq (c_b (t_im t)) p / den (cci_col O cc) p
        else nthq (c_b (t_im t)) i - den (cci_col O cc) i * (nthq (c_b (t_im t)) p / den (cci_col O cc) p)) /\
     c_mobj (t_im t') = c_mobj (t_im t) -
        relative_cost k t q * (nthq (c_b (t_im t)) p / den (cci_col O cc) p)) /\
  (ok_change L (k_rows k) -> exists t' info,
     bring_into_basis k t q p cc (relative_cost k t q) = Ok (t', info)).
Proof.
  intros Hk HI Lq Hcc Lp Np HNN.
  destruct (column_spec O L k rhs t q Hk HI Lq) as (cc' & N & Ecc & Wc & R & Inv & Vw & HBw).
  rewrite Hcc in Ecc. inversion Ecc; subst cc'. clear Ecc.
  pose proof (relative_cost_basis O L k rhs t q (den (cci_col O cc)) Hk HI Lq HBw) as Hcost.
  destruct HI as [I S]. set (m := k_rows k) in *. set (w := den (cci_col O cc)) in *.
  set (c := t_im t) in *. set (cost := relative_cost k t q) in *.
  pose proof (ci_lb _ _ _ _ _ I) as Lb. pose proof (ci_lbasis _ _ _ _ _ I) as Lba.
  pose proof (ci_lmpi _ _ _ _ _ I) as Lm. fold m in Lb, Lba, Lm.
  destruct (law_right O L m (c_bi c) N (cci_col O cc) R Wc) as (work & Ew & Ww & Vwork).
  { now apply (den_neq_nil _ p). }
  destruct (update_b_spec m (c_b c) p (cci_col O cc) Wc Lb Lp Np) as (b' & Eb & Lb' & Vb).
  fold w in Vb. set (theta := nthq (c_b c) p / w p) in *.
  set (basis' := upd (c_basis c) p q).
  assert (Lbas' : length basis' = m) by (unfold basis'; now rewrite upd_length).
  assert (Hbc : forall r, bcol basis' r = if Nat.eqb r p then q else bcol (c_basis c) r).
  { intros r. unfold bcol, basis'. apply upd_nth. lia. }
  assert (Rng' : forall r, (r < m)%nat -> (bcol basis' r < k_cols k)%nat).
  { intros r Lr. unfold bcol, basis'. rewrite upd_nth by lia.
    destruct (Nat.eqb r p); [assumption|]. now apply (ci_range _ _ _ _ _ I). }
  assert (Inv' : is_inverse m (pivot N p w) (bmat k basis')).
  { apply inverse_ext with (pivot N p w) (set_col (bmat k (c_basis c)) p (fun i => kA k i q)).
    - apply meq_refl.
    - intros i r Li Lr. symmetry. apply bmat_upd. now rewrite Lba.
    - apply pivot_inverse; try assumption. }
  assert (Wl : wfs m (k_col k q)) by now apply (proj1 Hk).
  (* the new representation *)
  set (newbi := if bi_refactor O (c_bi c)
     then let* cols := basis_columns_of k basis' in
          let* i := bi_invert O cols in Ok (i, cci_col O cc)
     else bi_change O (c_bi c) p cc).
  assert (Ecols : basis_columns_of k basis' = Ok (map (k_col k) basis')).
  { apply basis_columns_of_spec. rewrite Lbas'. assumption. }
  assert (Wcols : Forall (wfs m) (map (k_col k) basis')).
  { apply Forall_forall. intros x Hx. apply in_map_iff in Hx. destruct Hx as (j & <- & Hj).
    apply (proj1 Hk). apply In_bcol in Hj. destruct Hj as (r & Lr & <-). apply Rng'. now rewrite <- Lbas'. }
  assert (InvC : is_inverse m (pivot N p w) (cols_mat (map (k_col k) basis'))).
  { apply inverse_ext with (pivot N p w) (bmat k basis'); [apply meq_refl| |assumption].
    intros i r Li Lr. symmetry. apply cols_mat_map. now rewrite Lbas'. }
  assert (Part : forall i before, newbi = Ok (i, before) ->
     before = cci_col O cc /\ rep L m i (pivot N p w)).
  { intros i before E. unfold newbi in E. destruct (bi_refactor O (c_bi c)) eqn:Rf.
    - rewrite Ecols in E. cbn [bind] in E. destruct (bi_invert O (map (k_col k) basis')) eqn:Ei0; try discriminate E.
      cbn [bind] in E. inversion E; subst a before. split; [reflexivity|].
      apply (law_invert O L m (map (k_col k) basis') i); try assumption. now rewrite map_length.
    - now apply (law_change O L m (c_bi c) N (k_col k q) cc p i before). }
  assert (Tot : ok_change L m -> exists i before, newbi = Ok (i, before)).
  { intros Hok. unfold newbi. destruct (bi_refactor O (c_bi c)) eqn:Rf.
    - destruct (law_invert_total O L m (map (k_col k) basis') (pivot N p w)) as [i Ei]; try assumption.
      + now apply (law_refactor O L m (c_bi c) N).
      + now rewrite map_length.
      + rewrite Ecols. cbn [bind]. rewrite Ei. cbn [bind]. now exists i, (cci_col O cc).
    - now apply (law_change_total O L m (c_bi c) N (k_col k q) cc p). }
  assert (Ei : index (c_basis c) p = Ok (bcol (c_basis c) p)) by (apply index_Ok; lia).
  assert (Eth : index b' p = Ok theta).
  { rewrite index_nthq by lia. rewrite Vb, Nat.eqb_refl. reflexivity. }
  split.
  - intros t' info E. unfold bring_into_basis, carry_change in E. fold c in E.
    rewrite Ew in E. cbn [bind] in E. rewrite Eb in E. cbn [bind] in E. rewrite Ei in E. cbn [bind] in E.
    fold basis' in E. fold newbi in E.
    destruct newbi as [[i before]| |]; try discriminate E. cbn [bind] in E.
    destruct (Part i before eq_refl) as [-> Rep'].
    destruct (law_row O L m i (pivot N p w) p Rep' Lp) as (row & Er & Wr & Vr).
    rewrite Er in E. cbn [bind] in E.
    destruct (update_mpi_spec m (c_mpi c) cost row Wr Lm) as (mpi' & Em & Lm' & Vm).
    rewrite Em in E. cbn [bind] in E. rewrite Eth in E. cbn [bind] in E.
    inversion E; subst t' info. clear E. cbn [t_im t_cols c_basis c_b c_mobj i_leaving].
    assert (Brow : forall r, (r < m)%nat ->
       sum m (fun i => den row i * bmat k basis' i r) = delta p r).
    { intros r Lr. rewrite (sum_ext m _ (fun i => pivot N p w p i * bmat k basis' i r)).
      - now apply (proj1 Inv').
      - intros i0 Li0. now rewrite Vr. }
    split; [|split; [|split; [|split]]].
    + split.
      * constructor; simpl; fold m; try assumption.
        -- now exists (pivot N p w).
        -- intros i0 Li. rewrite (sum_ext m _ (fun r => bmat k (c_basis c) i0 r * nthq (c_b c) r
               - theta * (bmat k (c_basis c) i0 r * w r) + delta p r * (theta * kA k i0 q
                + theta * (bmat k (c_basis c) i0 p * w p)  - bmat k (c_basis c) i0 p * nthq (c_b c) p))).
           2:{ intros r Lr. unfold basis'. rewrite bmat_upd by lia. unfold set_col. rewrite Vb.
               destruct (Nat.eqb_spec r p) as [->|Ne].
               - rewrite delta_same. ring.
               - rewrite delta_diff by congruence. ring. }
           rewrite sum_plus, sum_minus. rewrite (ci_feas _ _ _ _ _ I) by assumption.
           rewrite sum_scal_l, HBw by assumption.
           rewrite (sum_delta_l m p (fun _ => _)) by assumption.
           assert (nthq (c_b c) p = theta * w p) as -> by (unfold theta; field; assumption).
           ring.
        -- intros r Lr. rewrite Vb. destruct HNN as [H1 H2].
           destruct (Nat.eqb_spec r p) as [->|Ne]; [assumption|]. now apply H2.
        -- intros r Lr. rewrite (sum_ext m _ (fun i0 => nthq (c_mpi c) i0 * bmat k basis' i0 r
                - cost * (den row i0 * bmat k basis' i0 r))).
           2:{ intros i0 Li0. rewrite Vm. ring. }
           rewrite sum_minus, sum_scal_l, Brow by assumption.
           unfold bcol. unfold basis' at 2. rewrite upd_nth by lia.
           destruct (Nat.eqb_spec r p) as [->|Ne].
           ++ rewrite delta_same.
              rewrite (sum_ext m _ (fun i0 => nthq (c_mpi c) i0 * kA k i0 q)).
              2:{ intros i0 Li0. unfold basis'. rewrite bmat_upd by lia. unfold set_col. now rewrite Nat.eqb_refl. }
              unfold cost. rewrite relative_cost_spec by assumption. fold c m. ring.
           ++ rewrite delta_diff by congruence.
              rewrite (sum_ext m _ (fun i0 => nthq (c_mpi c) i0 * bmat k (c_basis c) i0 r)).
              2:{ intros i0 Li0. unfold basis'. rewrite bmat_upd by lia. unfold set_col.
                  destruct (Nat.eqb_spec r p); [congruence|reflexivity]. }
              pose proof (ci_dual _ _ _ _ _ I r Lr) as D. fold m in D. rewrite D. unfold bcol. ring.
        -- rewrite (ci_obj _ _ _ _ _ I). fold m.
           rewrite (sum_ext m (fun r => k_cost k (bcol basis' r) * nthq b' r)
             (fun r => k_cost k (bcol (c_basis c) r) * nthq (c_b c) r
                - theta * (k_cost k (bcol (c_basis c) r) * w r)
                + delta p r * (theta * k_cost k q + theta * (k_cost k (bcol (c_basis c) p) * w p)
                     - k_cost k (bcol (c_basis c) p) * nthq (c_b c) p))).
           2:{ intros r Lr. unfold bcol at 1. unfold basis'. rewrite upd_nth by lia. rewrite Vb.
               destruct (Nat.eqb_spec r p) as [->|Ne].
               - rewrite delta_same. ring.
               - rewrite delta_diff by congruence. unfold bcol. ring. }
           rewrite sum_plus, sum_minus, sum_scal_l.
           rewrite (sum_delta_l m p (fun _ => _)) by assumption.
           rewrite Hcost.
           assert (nthq (c_b c) p = theta * w p) as -> by (unfold theta; field; assumption).
           ring.
      * intros j. cbn [t_cols t_im c_basis]. set (rest := filter _ (t_cols t)).
        assert (Hrest : forall x, In x rest <-> In x (c_basis c) /\ x <> bcol (c_basis c) p).
        { intros x. unfold rest. rewrite filter_In, negb_true_iff, Nat.eqb_neq, S. reflexivity. }
        assert (Hadd : In j (if memb q rest then rest else q :: rest) <-> j = q \/ In j rest).
        { destruct (memb q rest) eqn:Em'.
          - apply memb_In in Em'. split; [now right|]. intros [->|]; assumption.
          - simpl. split; intros [|]; auto. }
        rewrite Hadd, Hrest. split.
        -- intros [->|[Hj Hn]].
           ++ apply In_bcol. exists p. split; [lia|]. unfold bcol, basis'.
              rewrite upd_nth by lia. now rewrite Nat.eqb_refl.
           ++ apply In_bcol in Hj. destruct Hj as (r & Lr & <-). apply In_bcol. exists r.
              split; [lia|]. unfold bcol, basis'. rewrite upd_nth by lia.
              destruct (Nat.eqb_spec r p) as [->|]; [congruence|reflexivity].
        -- intros Hj. apply In_bcol in Hj. destruct Hj as (r & Lr & <-).
           rewrite (Hbc r). destruct (Nat.eqb_spec r p) as [->|Ne]; [now left|]. right. split.
           ++ apply nth_In. lia.
           ++ intros E. apply Ne. apply (inverse_injective m k N (c_basis c)); try assumption. lia.
    + red. cbn [i_row i_col i_leaving i_before i_work i_binv_row]. repeat split; try assumption.
      exists N. split; [assumption|]. split; [assumption|].
      intros j Lj. rewrite Vr by assumption. unfold pivot. now rewrite Nat.eqb_refl.
    + reflexivity.
    + exact Vb.
    + reflexivity.
  - intros Hok. destruct (Tot Hok) as (i & before & En).
    destruct (Part i before En) as [-> Rep'].
    destruct (law_row O L m i (pivot N p w) p Rep' Lp) as (row & Er & Wr & Vr).
    destruct (update_mpi_spec m (c_mpi c) cost row Wr Lm) as (mpi' & Em & Lm' & Vm).
    unfold bring_into_basis, carry_change. fold c.
    rewrite Ew. cbn [bind]. rewrite Eb. cbn [bind]. rewrite Ei. cbn [bind].
    fold basis'. fold newbi. rewrite En. cbn [bind]. rewrite Er. cbn [bind]. rewrite Em. cbn [bind].
    rewrite Eth. cbn [bind]. eexists. eexists. reflexivity.
Qed.

(** the row chosen by the ratio test keeps the basic solution non-negative *)
Lemma best_row_nonneg m (c : carry O) col p :
  (forall r, (r < m)%nat -> 0 <= nthq (c_b c) r) ->
  best_row c col (fun i => (i < m)%nat) p ->
  keeps_nonneg m (c_b c) (den col) p.
Proof.
  intros Hb (Lp & Hp & Hmin).
  assert (H0 : 0 <= nthq (c_b c) p / den col p) by (apply Qc_div_nonneg; [now apply Hb|assumption]).
  split; [assumption|]. intros i Li Ne. pose proof (Hb i Li) as Hi.
  destruct (Qclt_le_dec 0 (den col i)) as [P|P].
  - assert (Hle : nthq (c_b c) p / den col p <= nthq (c_b c) i / den col i).
    { destruct (Hmin i Li P) as [A|[A _]]; unfold ratio in A; [now apply Qclt_le_weak|].
      rewrite A. apply Qcle_refl. }
    assert (E : nthq (c_b c) i = nthq (c_b c) i / den col i * den col i)
      by (field; now apply Qc_pos_neq0).
    set (a := nthq (c_b c) p / den col p) in *. set (d := nthq (c_b c) i / den col i) in *.
    rewrite E. qnra.
  - set (a := nthq (c_b c) p / den col p) in *. qnra.
Qed.

End Change.
Arguments info_ok {O}.
