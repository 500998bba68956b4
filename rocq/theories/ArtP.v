(** * The end of phase one: verdicts, removal of artificial variables, redundant rows *)
From Verif Require Export InitP KindP KeptP.

(** What the two artificial kinds have in common; [c2r] maps an artificial variable to its row. *)
Record art_kind (p : provider) (k : kind) (c2r : nat -> nat) : Prop := mk_art {
  ak_rows : k_rows k = p_rows p;
  ak_cols : k_cols k = (k_art k + p_cols p)%nat;
  ak_acol : forall j, (j < k_art k)%nat -> k_col k j = sbasis (c2r j) /\ (c2r j < p_rows p)%nat;
  ak_rcol : forall j, (j < p_cols p)%nat -> k_col k (k_art k + j)%nat = p_col p j;
  ak_acost : forall j, (j < k_art k)%nat -> k_cost k j = 1;
  ak_rcost : forall j, (j < p_cols p)%nat -> k_cost k (k_art k + j)%nat = 0
}.
Lemma fully_art p : art_kind p (fully p) (fun j => j).
Proof.
  split; unfold fully; cbn [k_rows k_cols k_art k_col k_cost]; try reflexivity.
  - intros j Lj. apply Nat.ltb_lt in Lj as H. rewrite H. now split.
  - intros j Lj. destruct (Nat.ltb_spec (p_rows p + j) (p_rows p)); [lia|]. f_equal. lia.
  - intros j Lj. apply Nat.ltb_lt in Lj as H. now rewrite H.
  - intros j Lj. destruct (Nat.ltb_spec (p_rows p + j) (p_rows p)); [lia|reflexivity].
Qed.
Lemma partially_art p arts : (forall x, In x arts -> (x < p_rows p)%nat) ->
  art_kind p (partially p arts) (fun j => nth j arts 0%nat).
Proof.
  intros H. split; unfold partially; cbn [k_rows k_cols k_art k_col k_cost]; try reflexivity.
  - intros j Lj. apply Nat.ltb_lt in Lj as H1. rewrite H1. split; [reflexivity|]. now apply H, nth_In.
  - intros j Lj. destruct (Nat.ltb_spec (length arts + j) (length arts)); [lia|]. f_equal. lia.
  - intros j Lj. apply Nat.ltb_lt in Lj as H1. now rewrite H1.
  - intros j Lj. destruct (Nat.ltb_spec (length arts + j) (length arts)); [lia|reflexivity].
Qed.

Lemma increasing_In lo l x : increasing_from lo l -> In x l -> (lo <= x)%nat.
Proof. apply increasing_ge. Qed.
Lemma increasing_NoDup : forall l lo, increasing_from lo l -> NoDup l.
Proof.
  induction l as [|x l IH]; intros lo H; [constructor|]. destruct H as [H1 H2]. constructor.
  - intros C. apply (increasing_In (S x)) in C; [lia|assumption].
  - now apply IH with (S x).
Qed.
Lemma increasing_drop : forall l lo x l', increasing_from lo (l ++ x :: l') -> increasing_from lo (l ++ l').
Proof.
  induction l as [|y l IH]; intros lo x l' H; cbn [app] in *.
  - destruct H as [H1 H2]. destruct l' as [|z l']; [exact I|]. destruct H2. split; [lia|assumption].
  - destruct H as [H1 H2]. split; [assumption|]. now apply IH with x.
Qed.
Lemma increasing_filter (f : nat -> bool) : forall l lo, increasing_from lo l -> increasing_from lo (filter f l).
Proof.
  assert (W : forall l lo lo', (lo' <= lo)%nat -> increasing_from lo l -> increasing_from lo' l).
  { intros [|x l] lo lo' Le H; [exact I|]. destruct H. split; [lia|assumption]. }
  induction l as [|x l IH]; intros lo H; [exact I|]. destruct H as [H1 H2]. cbn [filter].
  destruct (f x).
  - split; [assumption|]. now apply IH.
  - apply W with (S x); [lia|]. now apply IH.
Qed.
Lemma increasing_seq n : forall a lo, (lo <= a)%nat -> increasing_from lo (seq a n).
Proof. induction n as [|n IH]; intros a lo H; [exact I|]. split; [assumption|]. apply IH. lia. Qed.

Lemma findM_spec {A} (f : A -> res bool) (P : A -> Prop) l :
  (forall x, In x l -> exists b, f x = Ok b /\ (b = true <-> P x)) ->
  exists r, findM f l = Ok r /\
    match r with
    | Some x => In x l /\ P x
    | None => forall x, In x l -> ~ P x
    end.
Proof.
  induction l as [|a l IH]; intros H; cbn [findM].
  - exists None. split; [reflexivity|]. intros x [].
  - destruct (H a (or_introl eq_refl)) as (b & E & Hb). rewrite E. cbn [bind]. destruct b.
    + exists (Some a). split; [reflexivity|]. split; [now left|]. now apply Hb.
    + destruct IH as (r & Er & Hr); [intros x Hx; apply H; now right|].
      exists r. split; [assumption|]. destruct r as [x|].
      * destruct Hr. split; [now right|assumption].
      * intros x [->|Hx]; [|now apply Hr]. intros C. apply Hb in C. discriminate.
Qed.

Section Art.
Variable O : BIOps.
Variable L : BILaws O.
Variable R : Rule O.
Variable RL : RuleLaws L R.
Variable p : provider.
Variable k : kind.
Variable c2r : nat -> nat.
Hypothesis Pok : provider_ok p.
Hypothesis AK : art_kind p k c2r.
Hypothesis Kok : kind_ok k.

Local Notation m := (p_rows p).
Local Notation rhs := (rhs_of p).

(** an artificial variable in the basis is basic in its own row *)
Definition own_row (basis : list nat) : Prop :=
  forall i, (i < m)%nat -> (bcol basis i < k_art k)%nat -> c2r (bcol basis i) = i.

Lemma own_row_upd basis r q : (k_art k <= q)%nat -> own_row basis -> own_row (upd basis r q).
Proof.
  intros Hq H i Li. unfold bcol. destruct (lt_dec r (length basis)) as [Lr|Nr].
  - rewrite upd_nth by assumption. destruct (Nat.eqb_spec i r); [lia|]. now apply H.
  - assert (E : upd basis r q = basis).
    { clear - Nr. revert r Nr. induction basis as [|x basis IH]; intros r Nr; [reflexivity|].
      cbn [length] in Nr. destruct r; [lia|]. cbn [upd]. f_equal. apply IH. lia. }
    rewrite E. now apply H.
Qed.

Lemma kcost_nonneg j : (j < k_cols k)%nat -> 0 <= k_cost k j.
Proof.
  intros Lj. rewrite (ak_cols _ _ _ AK) in Lj. destruct (lt_dec j (k_art k)) as [H|H].
  - rewrite (ak_acost _ _ _ AK) by assumption. discriminate.
  - replace j with (k_art k + (j - k_art k))%nat by lia. rewrite (ak_rcost _ _ _ AK) by lia. apply Qcle_refl.
Qed.

(** a solution of the original problem as a solution of the extended one *)
Definition extend (x : vec) : vec := fun j => if Nat.ltb j (k_art k) then 0 else x (j - k_art k)%nat.
Lemma sum_extend (f x : vec) :
  sum (k_cols k) (fun j => f j * extend x j) = sum (p_cols p) (fun j => f (k_art k + j)%nat * x j).
Proof.
  rewrite (ak_cols _ _ _ AK), sum_add. rewrite sum_zero.
  - rewrite Qcplus_0_l. apply sum_ext. intros j Lj. unfold extend.
    destruct (Nat.ltb_spec (k_art k + j) (k_art k)); [lia|]. do 2 f_equal. lia.
  - intros j Lj. unfold extend. apply Nat.ltb_lt in Lj. rewrite Lj. ring.
Qed.
Lemma extend_feasible x : feasible p x -> kfeasible k rhs (extend x).
Proof.
  intros [H1 H2]. split.
  - intros i Li. rewrite (ak_rows _ _ _ AK) in Li. rewrite sum_extend. unfold rhs_of.
    rewrite <- (H1 i Li). apply sum_ext. intros j Lj. unfold kA. now rewrite (ak_rcol _ _ _ AK).
  - intros j Lj. unfold extend. destruct (Nat.ltb_spec j (k_art k)); [apply Qcle_refl|].
    apply H2. rewrite (ak_cols _ _ _ AK) in Lj. lia.
Qed.
Lemma extend_cost x : kobj k (extend x) = 0.
Proof.
  unfold kobj. rewrite sum_extend. apply sum_zero. intros j Lj. rewrite (ak_rcost _ _ _ AK) by assumption. ring.
Qed.

Lemma objective_nonneg t : tab_inv L k rhs t -> 0 <= objective_value t.
Proof.
  intros HI. rewrite <- (bfs_objective O L k rhs t HI). unfold kobj. apply sum_nonneg. intros j Lj.
  apply Qc_mul_nonneg; [now apply kcost_nonneg|]. now apply (bfs_feasible O L k rhs t HI).
Qed.

(** phase one at an optimum with positive cost: no solution *)
Lemma phase_one_infeasible t x :
  tab_inv L k rhs t -> priced_out k t -> objective_value t <> 0 -> ~ feasible p x.
Proof.
  intros HI HP HO Hx. apply HO.
  assert (H : objective_value t <= 0).
  { rewrite <- (extend_cost x). apply (priced_out_optimal O L k rhs); try assumption.
    - now apply extend_feasible.
    - intros j Lj. unfold extend. apply Nat.ltb_lt in Lj. now rewrite Lj. }
  pose proof (objective_nonneg t HI). apply Qcle_antisym; assumption.
Qed.

(** basic artificial variables are zero *)
Lemma artificial_zero t i :
  tab_inv L k rhs t -> objective_value t = 0 -> (i < m)%nat ->
  (bcol (c_basis (t_im t)) i < k_art k)%nat -> nthq (c_b (t_im t)) i = 0.
Proof.
  intros [I _] HO Li Ha. unfold objective_value in HO. rewrite (ci_obj _ _ _ _ _ I) in HO.
  rewrite Qcopp_involutive in HO. rewrite <- (ak_rows _ _ _ AK) in Li.
  assert (Z : k_cost k (bcol (c_basis (t_im t)) i) * nthq (c_b (t_im t)) i = 0).
  2:{ rewrite (ak_acost _ _ _ AK) in Z by assumption. rewrite <- Z. ring. }
  apply (sum_zero_inv (k_rows k) (fun r => k_cost k (bcol (c_basis (t_im t)) r) * nthq (c_b (t_im t)) r));
    try assumption.
  intros r Lr. apply Qc_mul_nonneg; [|now apply (ci_nonneg _ _ _ _ _ I)].
    apply kcost_nonneg. now apply (ci_range _ _ _ _ _ I).
Qed.

Lemma variable_value_spec t i :
  tab_inv L k rhs t -> (i < m)%nat ->
  variable_value k t (bcol (c_basis (t_im t)) i) = Ok (nthq (c_b (t_im t)) i).
Proof.
  intros [I S] Li. unfold variable_value. rewrite <- (ak_rows _ _ _ AK) in Li.
  assert (Hin : In (bcol (c_basis (t_im t)) i) (c_basis (t_im t))).
  { apply nth_In. now rewrite (ci_lbasis _ _ _ _ _ I). }
  assert (Hb : in_basis t (bcol (c_basis (t_im t)) i) = true).
  { apply memb_In. now apply S. }
  rewrite Hb.
  destruct (findM_spec (fun i0 => let* c := index (c_basis (t_im t)) i0 in
       Ok (Nat.eqb c (bcol (c_basis (t_im t)) i))) (fun i0 => i0 = i) (seq 0 (k_rows k)))
    as (r & E & Hr).
  { intros x Hx. apply in_seq in Hx. rewrite (index_Ok _ _ 0%nat) by (rewrite (ci_lbasis _ _ _ _ _ I); lia).
    cbn [bind]. eexists. split; [reflexivity|]. rewrite Nat.eqb_eq. split; [|now intros ->].
    intros Ex. destruct (ci_rep _ _ _ _ _ I) as (N & _ & HN).
    apply (inverse_injective (k_rows k) k N (c_basis (t_im t))); try assumption; lia. }
  rewrite E. cbn [bind]. destruct r as [x|].
  - destruct Hr as [_ ->]. cbn [ofopt bind]. apply index_nthq. now rewrite (ci_lb _ _ _ _ _ I).
  - exfalso. apply (Hr i); [|reflexivity]. apply in_seq. lia.
Qed.

(** row [i] of the basis inverse, and element [i] of a generated column *)
Lemma element_spec t i j :
  tab_inv L k rhs t -> (i < m)%nat -> (j < k_cols k)%nat ->
  exists N e, rep L m (c_bi (t_im t)) N /\ is_inverse m N (bmat k (c_basis (t_im t))) /\
    generate_element k t i j = Ok e /\
    match e with
    | Some v => v = sum m (fun r => N i r * kA k r j)
    | None => sum m (fun r => N i r * kA k r j) = 0
    end.
Proof.
  intros [I _] Li Lj. destruct (ci_rep _ _ _ _ _ I) as (N & Rp & HN).
  rewrite (ak_rows _ _ _ AK) in *.
  destruct (law_elem O L m (c_bi (t_im t)) N i (k_col k j) Rp) as (e & E & He); try assumption.
  { destruct Kok as [W _]. specialize (W j Lj). now rewrite (ak_rows _ _ _ AK) in W. }
  exists N, e. repeat split; try assumption; apply HN.
Qed.

(** ** Removing artificial variables *)

(** the rows that are still to be handled or were marked *)
Definition dep (rows : list nat) (i : nat) : Prop :=
  exists y : vec, y i = 1 /\ (forall r, In r rows -> r <> i -> y r = 0) /\
      (forall j, (j < p_cols p)%nat -> sum m (fun r => y r * den (p_col p j) r) = 0) /\
      sum m (fun r => y r * nthq (p_rhs p) r) = 0.

Record removal_inv (t : tableau O) (rows : list nat) (todo : list (nat * nat)) : Prop := mk_rinv {
  ri_tab : tab_inv L k rhs t;
  ri_obj : objective_value t = 0;
  ri_own : own_row (c_basis (t_im t));
  ri_inc : increasing_from 0 (rows ++ map fst todo);
  ri_art : forall i, (i < m)%nat ->
     ((bcol (c_basis (t_im t)) i < k_art k)%nat <-> In i (rows ++ map fst todo));
  ri_lt : forall i, In i (rows ++ map fst todo) -> (i < m)%nat;
  ri_todo : forall i j, In (i, j) todo -> bcol (c_basis (t_im t)) i = j;
  ri_dep : forall i, In i rows -> dep (rows ++ map fst todo) i
}.

Lemma removal_step_spec t rows i j todo :
  removal_inv t rows ((i, j) :: todo) ->
  match removal_step O k (t, rows) (i, j) with
  | Ok (t', rows') => removal_inv t' rows' todo
  | Panic => ~ ok_change L m
  | Fuel => ~ ok_change L m
  end.
Proof.
  intros V. pose proof (ri_tab _ _ _ V) as HI. pose proof HI as [I S].
  assert (Hi : In i (rows ++ map fst ((i, j) :: todo))) by (apply in_or_app; right; now left).
  assert (Li : (i < m)%nat) by now apply (ri_lt _ _ _ V).
  assert (Ej : bcol (c_basis (t_im t)) i = j) by (apply (ri_todo _ _ _ V); now left).
  assert (Ha : (bcol (c_basis (t_im t)) i < k_art k)%nat) by now apply (ri_art _ _ _ V).
  pose proof (artificial_zero t i HI (ri_obj _ _ _ V) Li Ha) as Z.
  unfold removal_step. rewrite <- Ej. rewrite (variable_value_spec t i HI Li). cbn [bind]. rewrite Z.
  destruct (ci_rep _ _ _ _ _ I) as (N & Rp & HN). rewrite (ak_rows _ _ _ AK) in Rp, HN.
  destruct (findM_spec (removal_ok O k t i 0)
     (fun q => ~ In q (t_cols t) /\ sum m (fun r => N i r * kA k r q) <> 0) (range (k_art k) (k_cols k)))
     as (found & Ef & Hf).
  { intros q Hq. apply In_range in Hq. unfold removal_ok.
    destruct (in_basis t q) eqn:Eb.
    - exists false. split; [reflexivity|]. unfold in_basis in Eb. apply memb_In in Eb. intuition discriminate.
    - unfold in_basis in Eb. apply memb_false in Eb. cbn [qzero]. change (qzero 0) with true. cbv iota.
      destruct (element_spec t i q HI Li (proj2 Hq)) as (N' & e & _ & HN' & Ee & He).
      rewrite Ee. cbn [bind].
      assert (EN : sum m (fun r => N' i r * kA k r q) = sum m (fun r => N i r * kA k r q)).
      { apply sum_ext. intros r Lr. f_equal. now apply (inverse_unique m N' N (bmat k (c_basis (t_im t)))). }
      rewrite EN in He. eexists. split; [reflexivity|]. destruct e as [v|].
      + rewrite <- He. destruct (qzero v) eqn:Ev; qb; cbn [negb]; intuition (try discriminate; try contradiction).
      + intuition (try discriminate; try contradiction). }
  rewrite Ef. cbn [bind]. destruct found as [q|].
  - destruct Hf as (Hq & Nq & Nz). apply In_range in Hq.
    destruct (column_spec O L k rhs t q Kok HI (proj2 Hq)) as (cc & N' & Ec & Wc & Rp' & HN' & Vc & HB).
    rewrite (ak_rows _ _ _ AK) in *.
    rewrite Ec. cbn [bind].
    assert (Nzc : den (cci_col O cc) i <> 0).
    { rewrite Vc by assumption. intros C. apply Nz. rewrite <- C. apply sum_ext. intros r Lr. f_equal.
      now apply (inverse_unique m N N' (bmat k (c_basis (t_im t)))). }
    destruct (change_spec O L k rhs t i q cc Kok HI (proj2 Hq) Ec) as [Part Tot];
      rewrite ?(ak_rows _ _ _ AK) in *; try assumption.
    { unfold keeps_nonneg. rewrite Z. split.
      - unfold Qcdiv. rewrite Qcmult_0_l. apply Qcle_refl.
      - intros r Lr _. unfold Qcdiv. rewrite Qcmult_0_l, Qcmult_0_r. unfold Qcminus.
        rewrite Qcplus_0_r. apply (ci_nonneg _ _ _ _ _ I). now rewrite (ak_rows _ _ _ AK). }
    destruct (bring_into_basis k t q i cc (relative_cost k t q)) as [[t' info]| |] eqn:Eb; cbn [bind fst].
    2,3: intros Hok; destruct (Tot Hok) as (t' & info & E); discriminate.
    destruct (Part t' info eq_refl) as (HI' & _ & Ebas & Vb & Eobj).
    assert (Ln : length (c_basis (t_im t)) = m) by (rewrite (ci_lbasis _ _ _ _ _ I); apply (ak_rows _ _ _ AK)).
    assert (Sub : forall r, In r (rows ++ map fst todo) <-> In r (rows ++ map fst ((i, j) :: todo)) /\ r <> i).
    { intros r. pose proof (increasing_NoDup _ _ (ri_inc _ _ _ V)) as ND. cbn [map fst] in *.
      apply NoDup_remove_2 in ND. rewrite !in_app_iff in *. cbn [In]. split.
      - intros H. split; [tauto|]. intros ->. tauto.
      - intros [H Ne]. destruct H as [H|[H|H]]; [tauto|congruence|tauto]. }
    split.
    + assumption.
    + unfold objective_value. rewrite Eobj, Z. pose proof (ri_obj _ _ _ V) as HO. unfold objective_value in HO.
      transitivity (- c_mobj (t_im t)); [unfold Qcdiv; ring|exact HO].
    + rewrite Ebas. apply own_row_upd; [lia|]. apply (ri_own _ _ _ V).
    + apply increasing_drop with i. exact (ri_inc _ _ _ V).
    + intros r Lr. rewrite Ebas, Sub. unfold bcol. rewrite upd_nth by (rewrite Ln; assumption).
      destruct (Nat.eqb_spec r i) as [->|Ne].
      * split; [lia|]. intros [_ C]. congruence.
      * fold (bcol (c_basis (t_im t)) r). rewrite (ri_art _ _ _ V r Lr). tauto.
    + intros r Hr. apply Sub in Hr. now apply (ri_lt _ _ _ V).
    + intros r c Hr. rewrite Ebas. unfold bcol. rewrite upd_nth by (rewrite Ln; assumption).
      destruct (Nat.eqb_spec r i) as [->|Ne].
      * exfalso. assert (Hin : In i (rows ++ map fst todo)).
        { apply in_or_app. right. apply in_map_iff. now exists (i, c). }
        apply Sub in Hin. tauto.
      * apply (ri_todo _ _ _ V). now right.
    + intros r Hr. destruct (ri_dep _ _ _ V r Hr) as (y & Y1 & Y2 & Y3 & Y4).
      exists y. repeat split; try assumption. intros r' Hr' Ne. apply Y2; [|assumption]. now apply Sub.
  - assert (App : (rows ++ [i]) ++ map fst todo = rows ++ map fst ((i, j) :: todo)).
    { now rewrite <- app_assoc. }
    split; rewrite ?App; try apply V.
    + intros r c Hr. apply (ri_todo _ _ _ V). now right.
    + intros r Hr. apply in_app_or in Hr. destruct Hr as [Hr|[<-|[]]]; [now apply (ri_dep _ _ _ V)|].
      exists (N i).
      assert (Unit : forall r, (r < m)%nat -> (bcol (c_basis (t_im t)) r < k_art k)%nat -> N i r = delta i r).
      { intros r Lr Hr. rewrite <- (proj1 HN i r Li Lr). unfold mmul, bmat, kA.
        destruct (ak_acol _ _ _ AK (bcol (c_basis (t_im t)) r) Hr) as [-> _].
        rewrite (ri_own _ _ _ V r Lr Hr).
        rewrite (sum_ext _ _ (fun l => N i l * delta l r)).
        - now rewrite (sum_delta_r m r (fun l => N i l)).
        - intros l _. now rewrite den_sbasis, delta_sym. }
      repeat split.
      * rewrite Unit by assumption. apply delta_same.
      * intros r Hr Ne. assert (Lr : (r < m)%nat) by now apply (ri_lt _ _ _ V).
        rewrite Unit; [apply delta_diff; congruence|assumption|]. now apply (ri_art _ _ _ V).
      * intros l Ll. assert (Hl : In (k_art k + l)%nat (range (k_art k) (k_cols k))).
        { apply In_range. rewrite (ak_cols _ _ _ AK). lia. }
        assert (EA : sum m (fun r => N i r * den (p_col p l) r) = sum m (fun r => N i r * kA k r (k_art k + l)%nat)).
        { apply sum_ext. intros r _. unfold kA. now rewrite (ak_rcol _ _ _ AK). }
        rewrite EA. destruct (in_dec Nat.eq_dec (k_art k + l)%nat (t_cols t)) as [Hin|Hout].
        -- apply S in Hin. apply In_bcol in Hin. destruct Hin as (r & Lr & Er).
           rewrite (ci_lbasis _ _ _ _ _ I), (ak_rows _ _ _ AK) in Lr.
           transitivity (delta i r).
           ++ rewrite <- (proj1 HN i r Li Lr). unfold mmul, bmat. now rewrite Er.
           ++ apply delta_diff. intros ->. lia.
        -- specialize (Hf _ Hl). destruct (Qc_dec (sum m (fun r => N i r * kA k r (k_art k + l)%nat)) 0); tauto.
      * rewrite <- Z. transitivity (sum m (fun r => N i r * sum m (fun s => bmat k (c_basis (t_im t)) r s * nthq (c_b (t_im t)) s))).
        -- apply sum_ext. intros r Lr. pose proof (ci_feas _ _ _ _ _ I r) as F.
           rewrite (ak_rows _ _ _ AK) in F. rewrite (F Lr). reflexivity.
        -- rewrite mv_assoc. rewrite (sum_ext _ _ (fun l => delta i l * nthq (c_b (t_im t)) l)).
           ++ now apply (sum_delta_l m i).
           ++ intros l Ll. f_equal. now apply (proj1 HN).
Qed.

Lemma removal_fold todo : forall t rows,
  removal_inv t rows todo ->
  match foldM (removal_step O k) todo (t, rows) with
  | Ok (t', rows') => removal_inv t' rows' []
  | Panic => ~ ok_change L m
  | Fuel => ~ ok_change L m
  end.
Proof.
  induction todo as [|[i j] todo IH]; intros t rows V; cbn [foldM]; [assumption|].
  pose proof (removal_step_spec t rows i j todo V) as S.
  destruct (removal_step O k (t, rows) (i, j)) as [[t' rows']| |]; cbn [bind]; [now apply IH|exact S|exact S].
Qed.

Lemma artificial_columns_spec t :
  tab_inv L k rhs t ->
  exists l, artificial_basis_columns k t = Ok l /\
    increasing_from 0 (map fst l) /\
    (forall i j, In (i, j) l <-> (i < m)%nat /\ j = bcol (c_basis (t_im t)) i /\ (j < k_art k)%nat).
Proof.
  intros [I _]. unfold artificial_basis_columns.
  assert (E : mapM (fun i => let* j := index (c_basis (t_im t)) i in Ok (i, j)) (seq 0 (k_rows k)) =
     Ok (map (fun i => (i, bcol (c_basis (t_im t)) i)) (seq 0 (k_rows k)))).
  { assert (G : forall l, (forall x, In x l -> (x < k_rows k)%nat) ->
       mapM (fun i => let* j := index (c_basis (t_im t)) i in Ok (i, j)) l =
       Ok (map (fun i => (i, bcol (c_basis (t_im t)) i)) l)).
    { induction l as [|x l IH]; intros H; [reflexivity|]. cbn [mapM map].
      rewrite (index_Ok _ _ 0%nat) by (rewrite (ci_lbasis _ _ _ _ _ I); apply H; now left).
      cbn [bind]. rewrite IH by (intros; apply H; now right). reflexivity. }
    apply G. intros x Hx. apply in_seq in Hx. lia. }
  rewrite E. cbn [bind]. eexists. split; [reflexivity|].
  assert (F : forall l : list nat, map fst (filter (fun '(_, j) => Nat.ltb j (k_art k))
       (map (fun i => (i, bcol (c_basis (t_im t)) i)) l)) =
       filter (fun i => Nat.ltb (bcol (c_basis (t_im t)) i) (k_art k)) l).
  { induction l as [|x l IH]; [reflexivity|]. cbn [map filter].
    destruct (Nat.ltb (bcol (c_basis (t_im t)) x) (k_art k)); cbn [map fst]; now rewrite IH. }
  split.
  - rewrite F. apply increasing_filter, increasing_seq. lia.
  - intros i j. rewrite filter_In, in_map_iff. rewrite Nat.ltb_lt. split.
    + intros [(x & Ex & Hx) H]. inversion Ex; subst. apply in_seq in Hx. rewrite (ak_rows _ _ _ AK) in Hx.
      repeat split; try assumption; lia.
    + intros (H1 & -> & H2). split; [|assumption]. exists i. split; [reflexivity|]. apply in_seq.
      rewrite (ak_rows _ _ _ AK). lia.
Qed.

Lemma remove_artificials_spec t :
  tab_inv L k rhs t -> objective_value t = 0 -> own_row (c_basis (t_im t)) ->
  match remove_artificials O k t with
  | Ok (t', rows) => removal_inv t' rows []
  | Panic => ~ ok_change L m
  | Fuel => ~ ok_change L m
  end.
Proof.
  intros HI HO HW. unfold remove_artificials.
  destruct (artificial_columns_spec t HI) as (l & E & Inc & Hl). rewrite E. cbn [bind].
  apply removal_fold. split; cbn [app]; try assumption.
  - intros i Li. rewrite in_map_iff. split.
    + intros H. exists (i, bcol (c_basis (t_im t)) i). split; [reflexivity|]. now apply Hl.
    + intros ([i' j] & Ei & H). cbn [fst] in Ei. subst i'. apply Hl in H. destruct H as (_ & -> & H). assumption.
  - intros i H. apply in_map_iff in H. destruct H as ([i' j] & Ei & H). cbn [fst] in Ei. subst i'.
    apply Hl in H. apply H.
  - intros i j H. apply Hl in H. destruct H as (_ & -> & _). reflexivity.
  - intros i [].
Qed.

(** what phase one establishes *)
Definition phase_one_end (f : feasibility O) : Prop :=
  match f with
  | PhaseOneInfeasible _ => forall x, ~ feasible p x
  | PhaseOneFeasible _ RankFull t => removal_inv t [] []
  | PhaseOneFeasible _ (RankDeficient rows) t => rows <> [] /\ removal_inv t rows []
  end.

Lemma phase_one_spec fuel t :
  tab_inv L k rhs t -> own_row (c_basis (t_im t)) ->
  match phase_one O R fuel k t with
  | Ok f => phase_one_end f
  | Panic => ~ ok_change L m
  | Fuel => (forall s, r_new R k t = Ok s -> simplex_loop O R fuel k t s = Fuel) \/ ~ ok_change L m
  end.
Proof.
  intros HI HW. unfold phase_one.
  destruct (rl_new L R RL k rhs t Kok HI) as (s & Es & Hs). rewrite Es. cbn [bind].
  pose proof (loop_spec O L R RL k rhs own_row Kok
     (fun basis r q Hq => own_row_upd basis r q (proj1 Hq)) fuel t s HI Hs HW) as LS.
  rewrite (ak_rows _ _ _ AK) in LS.
  destruct (simplex_loop O R fuel k t s) as [[t'|t']| |] eqn:EL; cbn [bind].
  - destruct LS as (HI' & HP & HW' & _). destruct (qzero (objective_value t')) eqn:Z; qb.
    + destruct (has_artificial k t') eqn:HA.
      * pose proof (remove_artificials_spec t' HI' Z HW') as RS.
        destruct (remove_artificials O k t') as [[t'' rows]| |]; cbn [bind].
        -- destruct rows as [|r rows]; [exact RS|]. split; [discriminate|exact RS].
        -- exact RS.
        -- right. exact RS.
      * split; cbn [app map]; try assumption; try exact I.
        -- intros i Li. split; [|intros []]. intros C. exfalso.
           assert (T : has_artificial k t' = true).
           { apply existsb_exists. exists (bcol (c_basis (t_im t')) i). split; [|now apply Nat.ltb_lt].
             apply (proj2 HI'), nth_In. rewrite (ci_lbasis _ _ _ _ _ (proj1 HI')), (ak_rows _ _ _ AK). assumption. }
           congruence.
        -- intros i [].
        -- intros i j [].
        -- intros i [].
    + intros x. now apply (phase_one_infeasible t').
  - exfalso. destruct LS as (HI' & HR & _). revert HR.
    apply (nonneg_cost_no_ray O L k rhs); try assumption. exact kcost_nonneg.
  - exact LS.
  - left. intros s' E. inversion E. now subst s'.
Qed.

End Art.
