(** * Presolving: the bookkeeping is right, and fixed variables are filled in correctly *)
From Verif Require Import SpecGeneral SparseP LinAlg KindP InitP.
From Verif Require Export PreActs.
Local Open Scope Qc_scope.

Definition view_of (s : pindex) : view := mk_view (var_active (i_c s)) (con_active (i_c s)) (i_u s).
(** both bounds are there, and leave at most one value *)
Definition crossed (g : general) (u : updates) (j : nat) : Prop :=
  exists l h, bound_of g u j Lower = Some l /\ bound_of g u j Upper = Some h /\ h <= l.
(** a bound found by propagation is not weaker than the original one *)
Definition tight (g : general) (u : updates) : Prop :=
  forall j d a v, bound_of g u j d = Some a -> pbound g u j d = Some v -> bound_holds d v a.

Lemma NoDup_app_intro {A} (a b : list A) : NoDup a -> NoDup b -> (forall x, In x a -> In x b -> False) -> NoDup (a ++ b).
Proof.
  induction a as [|x a IH]; cbn; intros Ha Hb D; [assumption|]. apply NoDup_cons_iff in Ha. destruct Ha as [N Ha]. constructor.
  - rewrite in_app_iff. intros [H|H]; [contradiction|]. apply (D x); [now left|assumption].
  - apply IH; [assumption|assumption|]. intros y H H'. apply (D y); [now right|assumption].
Qed.

Section Tidy.
Variables (g : general) (rows : list svec).
Local Notation n := (nr_vars g).
Local Notation m := (g_rows g).
Local Notation row i := (nth i rows []).
Local Notation col j := (nth j (g_cols g) []).
Local Notation step := (step g rows).
Local Notation feas := (feas g rows).
Local Notation vcost := (vcost g).
Local Notation implied := (implied g rows).
Hypothesis M : matrix_ok g rows.
Definition in_col (j : nat) : list nat := map fst (col j).
Definition in_row (i : nat) : list nat := map fst (row i).

(** [J] are variables without constraints that have not been removed yet *)
Record tidy (J : nat -> bool) (s : pindex) : Prop := mk_tidy {
  td_nv : length (c_var (i_c s)) = n;
  td_nc : length (c_con (i_c s)) = m;
  td_bip : bip in_col in_row (cv s) (cc s);
  td_rem_nd : NoDup (map fst (u_removed (i_u s)));
  td_rem : forall j, In j (map fst (u_removed (i_u s))) <-> (j < n)%nat /\ cv s j = 0%nat /\ J j = false;
  td_gone_nd : NoDup (u_gone (i_u s));
  td_gone : forall i, In i (u_gone (i_u s)) <-> (i < m)%nat /\ cc s i = 0%nat;
  td_bq : forall i, cc s i = 1%nat -> In i (q_bound (i_q s));
  td_bq' : forall i, In i (q_bound (i_q s)) -> (cc s i <= 1)%nat;
  td_sq : forall j, In j (q_slack (i_q s)) -> (cv s j <= 1)%nat /\ v_cost (gvar g j) = 0;
  td_sub : forall j, In j (q_sub (i_q s)) -> crossed g (i_u s) j;
  td_apart : apart (i_u s);
  td_tight : tight g (i_u s);
  td_range : forall i r, cc s i <> 0%nat -> type_of g (i_u s) i = Range r -> 0 <= r;
  td_acts : acts_ok g rows s }.
Definition nobody : nat -> bool := fun _ => false.
Definition domains (s : pindex) : Prop := forall j, cv s j <> 0%nat -> feasible_value g (i_u s) j <> None.

Lemma in_swap i j : In i (in_col j) <-> In j (in_row i).
Proof.
  unfold in_col, in_row. rewrite !in_map_iff. split; intros ([k c] & E & I); cbn in E; subst k.
  - exists (j, c). split; [reflexivity|]. now apply (mo_in _ _ M).
  - exists (i, c). split; [reflexivity|]. now apply (mo_in _ _ M).
Qed.
Lemma in_col_nd j : NoDup (in_col j). Proof. apply (mo_nd_col _ _ M). Qed.
Lemma in_row_nd i : NoDup (in_row i). Proof. apply (mo_nd_row _ _ M). Qed.
Lemma active_column_fst s j : map fst (active_column g (i_c s) j) = alive (cc s) (in_col j).
Proof.
  unfold active_column, in_col, alive. induction (col j) as [|[i c] l IH]; [reflexivity|]. cbn [filter map fst]. rewrite con_active_cc.
  destruct (Nat.eqb (cc s i) 0); cbn [negb]; [assumption|]. cbn [map fst]. now rewrite IH.
Qed.
Lemma active_row_fst s i : map fst (active_row rows (i_c s) i) = alive (cv s) (in_row i).
Proof.
  unfold active_row, in_row, alive. induction (row i) as [|[j c] l IH]; [reflexivity|]. cbn [filter map fst]. rewrite var_active_cv.
  destruct (Nat.eqb (cv s j) 0); cbn [negb]; [assumption|]. cbn [map fst]. now rewrite IH.
Qed.
Lemma active_column_In s j i c : In (i, c) (active_column g (i_c s) j) <-> In (i, c) (col j) /\ cc s i <> 0%nat.
Proof. unfold active_column. rewrite filter_In, con_active_cc, negb_true_iff, Nat.eqb_neq. reflexivity. Qed.
Lemma active_row_In s i j c : In (j, c) (active_row rows (i_c s) i) <-> In (j, c) (row i) /\ cv s j <> 0%nat.
Proof. unfold active_row. rewrite filter_In, var_active_cv, negb_true_iff, Nat.eqb_neq. reflexivity. Qed.
Lemma active_column_nd s j : NoDup (map fst (active_column g (i_c s) j)).
Proof. apply NoDup_fst_filter, (mo_nd_col _ _ M). Qed.
Lemma active_row_nd s i : NoDup (map fst (active_row rows (i_c s) i)).
Proof. apply NoDup_fst_filter, (mo_nd_row _ _ M). Qed.
Lemma td_column J s j : tidy J s -> cv s j <> 0%nat -> cv s j = length (active_column g (i_c s) j).
Proof. intros T N. rewrite <- (map_length fst), active_column_fst. now apply (td_bip _ _ T). Qed.
Lemma td_row J s i : tidy J s -> cc s i <> 0%nat -> cc s i = length (active_row rows (i_c s) i).
Proof. intros T N. rewrite <- (map_length fst), active_row_fst. now apply (td_bip _ _ T). Qed.
Lemma cv_lt J s j : tidy J s -> cv s j <> 0%nat -> (j < n)%nat.
Proof. intros T N. rewrite <- (td_nv _ _ T). now apply nth_nonzero_lt. Qed.
Lemma cc_lt J s i : tidy J s -> cc s i <> 0%nat -> (i < m)%nat.
Proof. intros T N. rewrite <- (td_nc _ _ T). now apply nth_nonzero_lt. Qed.
Lemma on_var_cv s j : on_var (view_of s) j = true <-> cv s j <> 0%nat.
Proof. cbn. rewrite var_active_cv, negb_true_iff, Nat.eqb_neq. reflexivity. Qed.
Lemma on_row_cc s i : on_row (view_of s) i = true <-> cc s i <> 0%nat.
Proof. cbn. rewrite con_active_cc, negb_true_iff, Nat.eqb_neq. reflexivity. Qed.
Lemma on_var_false s j : on_var (view_of s) j = false <-> cv s j = 0%nat.
Proof. cbn. rewrite var_active_cv, negb_false_iff, Nat.eqb_eq. reflexivity. Qed.
Lemma on_row_false s i : on_row (view_of s) i = false <-> cc s i = 0%nat.
Proof. cbn. rewrite con_active_cc, negb_false_iff, Nat.eqb_eq. reflexivity. Qed.

Lemma bound_of_cases u j d : bound_of g u j d = match u_acts u j d with Some a => Some a | None => pbound g u j d end.
Proof. reflexivity. Qed.
Lemma within_pwithin u j x : tight g u -> within g u j x -> pwithin g u j x.
Proof.
  intros T W d v P. specialize (W d). destruct (bound_of g u j d) as [a|] eqn:E.
  - specialize (W a eq_refl). pose proof (T j d a v E P) as H. destruct d; cbn in *; qlra.
  - exfalso. rewrite bound_of_cases, P in E. destruct (u_acts u j d); discriminate.
Qed.

(** *** Verdicts *)
Definition beyond (limit c : Qc) : Prop := match g_objective g with Minimize => c < limit | Maximize => limit < c end.
Definition verdict_holds (w : view) (v : verdict) : Prop :=
  match v with
  | VInfeasible => forall x, ~ feas w x
  | VUnbounded => forall x, feas w x -> forall limit, exists y, feas w y /\ beyond limit (vcost w y)
  | VOptimum _ => False
  end.
Lemma verdict_step w w' v : step w w' -> verdict_holds w' v -> verdict_holds w v.
Proof.
  intros S. destruct v as [| |s]; cbn; [| |auto].
  - intros H x F. exact (H x (proj1 (st_fwd _ _ _ _ S x F))).
  - intros H x F limit. destruct (H x (proj1 (st_fwd _ _ _ _ S x F)) limit) as (y & FY & B).
    destruct (st_ext _ _ _ _ S y FY) as (z & FZ & E & _). exists z. split; [assumption|]. now rewrite E.
Qed.
Context {Cl : (nat -> bool) -> Prop} {Kn : nat -> bool}.
Local Notation cstep := (cstep g rows Cl).
Lemma verdict_cstep w w' v : cstep w w' -> verdict_holds w' v -> verdict_holds w v.
Proof. intros [S _]. now apply verdict_step. Qed.
(** the bounds that propagation has found since follow from the constraints in [Kn] *)
Definition found (s s' : pindex) : Prop := forall j e v, on_var (view_of s') j = true -> u_acts (i_u s') j e = Some v ->
  u_acts (i_u s) j e = Some v \/ forall x, feas (cut Kn (view_of s')) x -> bound_holds e v (x j).
Lemma found_same s s' : u_acts (i_u s') = u_acts (i_u s) -> found s s'.
Proof. intros E j e v _. rewrite E. now left. Qed.
(** a state follows from another one *)
Definition good (s s' : pindex) : Prop := tidy nobody s' /\ cstep (view_of s) (view_of s') /\ implied (view_of s') /\ found s s'.

(** ** Fixed variables *)
Definition shift_all (v : Qc) (u : updates) (l : svec) : updates := fold_left (fun u '(i, c) => change_b g u i (- c * v)) l u.
Lemma shift_all_spec v : forall l u, NoDup (map fst l) -> let u' := shift_all v u l in
  u_types u' = u_types u /\ u_fixed u' = u_fixed u /\ u_bounds u' = u_bounds u /\ u_acts u' = u_acts u /\ u_removed u' = u_removed u /\ u_gone u' = u_gone u /\
  (forall i c, In (i, c) l -> b_of g u' i = b_of g u i + - c * v) /\ (forall i, ~ In i (map fst l) -> b_of g u' i = b_of g u i).
Proof.
  induction l as [|[i c] l IH]; intros u ND; cbn [shift_all fold_left]; [now repeat split|].
  cbn [map fst] in ND. apply NoDup_cons_iff in ND. destruct ND as [NI ND].
  destruct (IH (change_b g u i (- c * v)) ND) as (A1 & A2 & A3 & A4 & A5 & A6 & A7 & A8). unfold shift_all in *.
  assert (B : forall k, b_of g (change_b g u i (- c * v)) k = if Nat.eqb k i then b_of g u i + - c * v else b_of g u k).
  { intros k. unfold b_of at 1. cbn. unfold put. destruct (Nat.eqb_spec k i); reflexivity. }
  repeat split; try assumption.
  - intros k e [E|I].
    + injection E as <- <-. rewrite A8 by assumption. now rewrite B, Nat.eqb_refl.
    + rewrite (A7 k e I), B. destruct (Nat.eqb_spec k i) as [->|]; [|reflexivity]. exfalso. apply NI. now apply (in_map fst) in I.
  - intros k K. cbn in K. rewrite A8 by auto. rewrite B. destruct (Nat.eqb_spec k i) as [->|]; [exfalso; auto|reflexivity].
Qed.
Lemma fixed_variable_rule_spec s j : tidy nobody s -> implied (view_of s) -> domains s -> crossed g (i_u s) j -> cv s j <> 0%nat ->
  pspec (fixed_variable_rule g s j) (good s) (verdict_holds (view_of s)) False.
Proof.
  intros T I D CR Nj. unfold fixed_variable_rule.
  pose proof (cv_lt _ _ _ T Nj) as Lj.
  destruct CR as (l & h & Bl & Bh & HL).
  destruct (fixed_value g (i_u s) j) as [v|] eqn:FV.
  2:{ exfalso. specialize (D j Nj). unfold fixed_value in FV. unfold feasible_value in D. rewrite Bl, Bh in *.
      destruct (qleb l h) eqn:E1; [|congruence]. destruct (qeqb l h) eqn:E2; [discriminate|]. qb. apply E2. qlra. }
  cbn [unwrap pbind]. fold (shift_all v (i_u s) (active_column g (i_c s) j)).
  set (L := active_column g (i_c s) j). pose proof (active_column_nd s j) as NDL. fold L in NDL.
  destruct (shift_all_spec v L (i_u s) NDL) as (U1 & U2 & U3 & U4 & U5 & U6 & U7 & U8). set (u1 := shift_all v (i_u s) L) in *.
  set (s0 := with_u s (add_cost u1 (v_cost (gvar g j) * v))).
  change (active_column g (i_c s0) j) with L.
  assert (X : forall x, feas (view_of s) x -> x j = v).
  { intros x F. apply (fixed_value_ok g (i_u s) j v (x j) FV). apply I; [assumption|]. now apply on_var_cv. }
  assert (T0 : forall i, type_of g (i_u s0) i = type_of g (i_u s) i) by (intros i; unfold type_of; cbn; now rewrite U1).
  assert (ALIVE : alive (cc s) (in_col j) = map fst L) by (symmetry; apply active_column_fst).
  assert (CV : cv s j = length L) by (apply (td_column _ _ _ T Nj)).
  assert (CL : forall i, In i (map fst L) -> cc s i <> 0%nat).
  { intros i Hi. rewrite <- ALIVE in Hi. now apply alive_In in Hi. }
  (* a constraint with this variable only *)
  assert (ONE : forall i, In i (map fst L) -> cc s i = 1%nat -> exists c, In (i, c) L /\ active_row rows (i_c s) i = [(j, c)]).
  { intros i Hi C1. apply in_map_iff in Hi. destruct Hi as ([i' c] & E & Hi). cbn in E. subst i'. exists c. split; [assumption|].
    assert (A : In (j, c) (active_row rows (i_c s) i)).
    { apply active_row_In. unfold L in Hi. apply active_column_In in Hi. split; [now apply (mo_in _ _ M)|assumption]. }
    assert (LN : length (active_row rows (i_c s) i) = 1%nat) by (rewrite <- (td_row _ _ _ T); lia).
    destruct (active_row rows (i_c s) i) as [|a [|b r]]; [contradiction| |cbn in LN; lia]. destruct A as [->|[]]. reflexivity. }
  eapply pspec_bind; [eapply pspec_impl; [apply (take_rows_spec g j L s0)| | |]|].
  - assumption.
  - exact CL.
  - change (cv s0 j) with (cv s j). lia.
  - intros a H. exact H.
  - (* verdict *)
    cbn beta. intros v0 [-> (i & Hi & C1 & EF)] x F. destruct (ONE i Hi C1) as (c & Hc & AR).
    assert (NF : empty_feasible (b_of g (i_u s0) i) (type_of g (i_u s0) i) = true); [|congruence]. apply empty_feasible_ok.
    pose proof (proj2 F i (proj2 (on_row_cc s i) (CL i Hi))) as R. unfold on_var, upds, view_of in R. change (only (var_active (i_c s)) (row i)) with (active_row rows (i_c s) i) in R. rewrite AR in R. cbn [combination] in R.
    rewrite (X x F) in R. rewrite T0. change (b_of g (i_u s0) i) with (b_of g u1 i). rewrite (U7 i c Hc).
    apply (rel_shift _ _ (c * v)). replace (b_of g (i_u s) i + - c * v + c * v) with (b_of g (i_u s) i) by ring.
    replace (0 + c * v) with (c * v + 0) by ring. exact R.
  - auto.
  - cbn beta. intros s1 (A1 & A2 & A3 & A4 & A5 & A6 & A7 & A8 & A9 & A10 & A11 & A12). cbn [pspec].
    set (s2 := mark_variable s1 j (Solved v)).
    assert (CVs : forall k, cv s2 k = (cv s k - if Nat.eqb k j then length L else 0)%nat) by (intros k; exact (A5 k)).
    assert (CCs : forall i, cc s2 i = (cc s i - if memb i (map fst L) then 1 else 0)%nat) by (intros k; exact (A6 k)).
    assert (CVj : cv s2 j = 0%nat) by (rewrite CVs, Nat.eqb_refl; lia).
    assert (CVk : forall k, k <> j -> cv s2 k = cv s k) by (intros k Hk; rewrite CVs; destruct (Nat.eqb_spec k j); [contradiction|lia]).
    assert (CC0 : forall i, cc s2 i <> 0%nat -> cc s i <> 0%nat) by (intros i; rewrite CCs; destruct (memb i (map fst L)); lia).
    assert (Ub : u_bounds (i_u s2) = u_bounds (i_u s)) by (cbn; rewrite A7; exact U3).
    assert (Ua : u_acts (i_u s2) = u_acts (i_u s)) by (cbn; rewrite A7; exact U4).
    assert (PB : forall k d, pbound g (i_u s2) k d = pbound g (i_u s) k d) by (intros; unfold pbound; now rewrite Ub).
    assert (BO : forall k d, bound_of g (i_u s2) k d = bound_of g (i_u s) k d) by (intros; rewrite !bound_of_cases, Ua, PB; reflexivity).
    assert (TY : forall i, type_of g (i_u s2) i = type_of g (i_u s) i) by (intros i; unfold type_of; cbn; rewrite A7; cbn; now rewrite U1).
    assert (BB : forall i, b_of g (i_u s2) i = b_of g u1 i) by (intros i; unfold b_of; cbn; rewrite A7; reflexivity).
    assert (RM : u_removed (i_u s2) = u_removed (i_u s) ++ [(j, Solved v)]) by (cbn; rewrite A7; cbn; now rewrite U5).
    assert (GN : u_gone (i_u s2) = u_gone (i_u s) ++ filter (fun i => Nat.eqb (cc s i) 1) (map fst L)) by (cbn; rewrite A7; cbn; now rewrite U6).
    assert (BIP : bip in_col in_row (cv s2) (cc s2)).
    { apply (bip_delete in_col in_row in_swap in_row_nd (cv s) (cc s) (cv s2) (cc s2) j); try assumption.
      - apply (td_bip _ _ T).
      - intros i. now rewrite ALIVE. }
    assert (V : forall k, on_var (view_of s2) k = on_var (view_of s) k && negb (Nat.eqb k j)).
    { intros k. apply eq_true_iff_eq. rewrite andb_true_iff, !on_var_cv, negb_true_iff, Nat.eqb_neq. destruct (Nat.eq_dec k j) as [->|Hk].
      - rewrite CVj. split; [congruence|intros [_ H]; congruence].
      - rewrite CVk by assumption. tauto. }
    assert (ST : cstep (view_of s) (view_of s2)).
    { apply (cstep_fix g rows (mo_nd_row _ _ M) (view_of s) (view_of s2) j v); try assumption.
      - now apply on_var_cv.
      - cbn [view_of upds]. cbn. rewrite A7. cbn. now rewrite U2.
      - apply within_pwithin; [apply (td_tight _ _ T)|]. now apply (fixed_value_ok g (i_u s) j v v FV).
      - intros i. rewrite !on_row_cc. apply CC0.
      - intros i Oi. apply on_row_cc in Oi. cbn [view_of upds]. split; [apply TY|]. rewrite BB. split.
        + intros c Hc. apply (U7 i c). apply active_column_In. split; [now apply (mo_in _ _ M)|assumption].
        + intros N. apply U8. intros H. apply N. apply in_swap. fold (in_col j). rewrite <- ALIVE in H. now apply alive_In in H.
      - intros i Oi Oi'. apply on_row_cc in Oi. apply on_row_false in Oi'. rewrite CCs in Oi'.
        destruct (memb i (map fst L)) eqn:E; [|lia]. apply memb_In in E. assert (C1 : cc s i = 1%nat) by lia. split.
        + destruct (ONE i E C1) as (c & Hc & AR).
          assert (EM : forall k c', In (k, c') (only (on_var (view_of s2)) (row i)) -> False).
          { intros k c' H. apply only_In in H. destruct H as [H1 H2]. apply on_var_cv in H2. destruct (Nat.eq_dec k j) as [->|Hk]; [congruence|].
            rewrite CVk in H2 by assumption. assert (A : In (k, c') (active_row rows (i_c s) i)) by now apply active_row_In. rewrite AR in A. destruct A as [A|[]]. congruence. }
          destruct (only (on_var (view_of s2)) (row i)) as [|[k c'] r]; [reflexivity|]. exfalso. apply (EM k c'). now left.
        + apply empty_feasible_ok. cbn [view_of upds]. rewrite BB, TY, <- T0. apply (A12 i E). exact C1. }
    split; [|split; [exact ST|split; [|now apply found_same]]].
    2:{ apply (implied_csame g rows (view_of s) (view_of s2) ST I). intros k d _. apply BO. }
    constructor.
    + cbn. rewrite A3. exact (td_nv _ _ T).
    + cbn. rewrite A4. exact (td_nc _ _ T).
    + exact BIP.
    + rewrite RM, map_app. cbn. apply NoDup_app_intro.
      * apply (td_rem_nd _ _ T).
      * repeat constructor. auto.
      * intros k H [<-|[]]. apply (td_rem _ _ T) in H. destruct H as (_ & H & _). congruence.
    + intros k. rewrite RM, map_app, in_app_iff, (td_rem _ _ T). cbn. destruct (Nat.eq_dec k j) as [->|Hk].
      * rewrite CVj. tauto.
      * rewrite CVk by assumption. intuition congruence.
    + rewrite GN. apply NoDup_app_intro.
      * apply (td_gone_nd _ _ T).
      * apply NoDup_filter. assumption.
      * intros i H H'. apply (td_gone _ _ T) in H. apply filter_In in H'. destruct H' as [H' _]. apply CL in H'. destruct H. contradiction.
    + intros i. rewrite GN, in_app_iff, (td_gone _ _ T), filter_In, Nat.eqb_eq, CCs.
      destruct (memb i (map fst L)) eqn:E.
      * apply memb_In in E. pose proof (CL i E) as Ci. pose proof (cc_lt _ _ _ T Ci). split; [intros [[_ H']|[_ H']]; split; (lia || assumption)|].
        intros [_ H']. right. split; [assumption|lia].
      * apply memb_false in E. rewrite Nat.sub_0_r. tauto.
    + intros i H. change (In i (q_bound (i_q s1))). apply A11. rewrite CCs in H. change (q_bound (i_q s0)) with (q_bound (i_q s)). change (cc s0 i) with (cc s i).
      destruct (memb i (map fst L)) eqn:E; [right; apply memb_In in E; split; [assumption|lia]|]. left. apply (td_bq _ _ T). lia.
    + intros i H. change (In i (q_bound (i_q s1))) in H. apply A11 in H. change (q_bound (i_q s0)) with (q_bound (i_q s)) in H. change (cc s0 i) with (cc s i) in H.
      rewrite CCs. destruct H as [H|[H H']].
      * apply (td_bq' _ _ T) in H. lia.
      * apply memb_In in H. rewrite H. lia.
    + intros k H. change (In k (q_slack (i_q s1))) in H. rewrite A9 in H. apply (td_sq _ _ T) in H. destruct H as [H1 H2]. split; [rewrite CVs; lia|assumption].
    + intros k H. change (In k (q_sub (i_q s1))) in H. rewrite A8 in H. apply (td_sub _ _ T) in H. destruct H as (l' & h' & H1 & H2 & H3). exists l', h'. now rewrite !BO.
    + unfold apart. rewrite Ub, Ua. apply (td_apart _ _ T).
    + intros k d a w. rewrite BO, PB. apply (td_tight _ _ T).
    + intros i r Ci. rewrite TY. apply (td_range _ _ T). auto.
    + pose proof (td_acts _ _ T) as [O1 O2 O3 O4 O5].
      assert (CA : forall i e, ca s2 i e = ca s i e) by (intros i e; unfold ca; cbn; now rewrite A2).
      constructor.
      * cbn. now rewrite A2.
      * cbn. now rewrite A1.
      * intros i e Ci. rewrite CA, O3 by auto. unfold missing.
        assert (E : filter (lacks_bound g (i_u s2) e) (active_row rows (i_c s2) i) = filter (lacks_bound g (i_u s) e) (active_row rows (i_c s) i)).
        { unfold active_row. rewrite !filter_filter. apply filter_ext. intros [k c]. unfold lacks_bound. cbn [fst snd]. rewrite BO.
          change (var_active (i_c s2) k) with (on_var (view_of s2) k). change (var_active (i_c s) k) with (on_var (view_of s) k). rewrite V.
          destruct (Nat.eqb_spec k j) as [->|]; [|now rewrite andb_true_r]. destruct (bmul e c); rewrite ?Bl, ?Bh; now rewrite !andb_false_r. }
        now rewrite E.
      * intros i e Ci K. rewrite CA. apply O4; [auto|]. unfold cache in *. cbn in K. now rewrite A1 in K.
      * intros i e H Ci. rewrite CA. apply O5; [|auto]. change (In (i, e) (q_act (i_q s1))) in H. now rewrite A10 in H.
Qed.
End Tidy.
