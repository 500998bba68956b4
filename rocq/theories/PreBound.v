(** * Presolving: redundant rows, and rows that are bounds *)
From Verif Require Import SpecGeneral SparseP LinAlg KindP InitP.
From Verif Require Export PreDrop.
Local Open Scope Qc_scope.

Lemma tidy_ext g rows J J' s : (forall j, J j = J' j) -> tidy g rows J s -> tidy g rows J' s.
Proof. intros E [H1 H2 H3 H4 H5]. constructor; try assumption. intros j. rewrite <- E. apply H5. Qed.

Section Bound.
Variables (g : general) (rows : list svec).
Local Notation n := (nr_vars g).
Local Notation m := (g_rows g).
Local Notation row i := (nth i rows []).
Local Notation col j := (nth j (g_cols g) []).
Context {Cl : (nat -> bool) -> Prop} {Kn : nat -> bool}.
Local Notation step := (cstep g rows Cl).
Local Notation feas := (feas g rows).
Local Notation vcost := (vcost g).
Local Notation implied := (implied g rows).
Local Notation tidy := (tidy g rows).
Local Notation in_row := (in_row rows).
Local Notation in_col := (in_col g).
Local Notation verdict_holds := (verdict_holds g rows).
Hypothesis M : matrix_ok g rows.

(** a free variable that improves the cost for ever *)
Lemma free_unbounded w k : (k < n)%nat -> on_var w k = true -> (forall i, on_row w i = true -> ~ In k (map fst (row i))) ->
  implied w -> tight g (upds w) ->
  optimize_column g (v_cost (gvar g k)) (bound_of g (upds w) k Lower) (bound_of g (upds w) k Upper) = Stop VUnbounded ->
  verdict_holds w VUnbounded.
Proof.
  intros Lk Ok Nk I TI E x F limit. destruct (optimize_column_stop _ _ _ _ _ E) as [_ H].
  pose proof (I x F k Ok) as W. destruct (H (x k) (limit - (vcost w x - v_cost (gvar g k) * x k)) (W Lower) (W Upper)) as (y & Y1 & Y2 & Y3).
  exists (set_at x k y). split.
  - destruct F as [F1 F2]. split.
    + intros j Hj. destruct (Nat.eq_dec j k) as [->|D]; [|rewrite set_at_other by assumption; now apply F1].
      rewrite set_at_same. apply within_pwithin; [assumption|]. intros [|]; assumption.
    + intros i Hi. rewrite (combination_ext _ _ x); [now apply F2|]. intros j c Hj. apply only_In in Hj. destruct Hj as [Hj _].
      apply set_at_other. intros ->. apply (Nk i Hi). now apply (in_map fst) in Hj.
  - assert (C : vcost w (set_at x k y) = vcost w x + (v_cost (gvar g k) * y - v_cost (gvar g k) * x k)).
    { unfold PreView.vcost. rewrite (StandardP.sum_one_changed n k (fun j => if on_var w j then v_cost (gvar g j) * x j else 0) (fun j => if on_var w j then v_cost (gvar g j) * set_at x k y j else 0)
        (v_cost (gvar g k) * y - v_cost (gvar g k) * x k) Lk).
      - ring.
      - intros j _ D. now rewrite set_at_other.
      - rewrite Ok, set_at_same. ring. }
    rewrite C. unfold beyond. destruct (g_objective g); qlra.
Qed.

(** ** A redundant row *)
Definition without_row (s : pindex) (i : nat) : view :=
  mk_view (var_active (i_c s)) (fun k => con_active (i_c s) k && negb (Nat.eqb k i)) (add_gone (i_u s) [i]).
Definition drop_row (s : pindex) (i : nat) : pr pindex := let+ s' := remove_constraint_values g rows s i in Go (mark_constraint s' i).
Lemma without_row_step s i : cc s i <> 0%nat ->
  (forall x, feas (without_row s i) x -> rel_holds (type_of g (i_u s) i) (b_of g (i_u s) i) (combination (active_row rows (i_c s) i) x)) ->
  (forall D, Cl D -> D i = true -> forall x, feas (cut D (without_row s i)) x -> rel_holds (type_of g (i_u s) i) (b_of g (i_u s) i) (combination (active_row rows (i_c s) i) x)) ->
  step (view_of s) (without_row s i).
Proof.
  intros Ci RED REDC. apply cstep_same; try reflexivity.
  - intros x. split.
    + intros [F1 F2]. split; [exact F1|]. intros k Hk. cbn in Hk. apply andb_true_iff in Hk. apply (F2 k). apply Hk.
    + intros F. pose proof F as [F1 F2]. split; [exact F1|]. intros k Hk. destruct (Nat.eq_dec k i) as [->|D]; [now apply RED|].
      apply (F2 k). cbn in *. rewrite Hk. destruct (Nat.eqb_spec k i); [contradiction|reflexivity].
  - intros D CD x F. pose proof F as [F1 F2]. split; [exact F1|]. intros k Hk. apply cut_row in Hk. destruct Hk as [Hk Dk]. destruct (Nat.eq_dec k i) as [->|N].
    + now apply (REDC D CD Dk).
    + apply (F2 k). apply cut_row. split; [|assumption]. cbn in *. rewrite Hk. destruct (Nat.eqb_spec k i); [contradiction|reflexivity].
Qed.
Lemma drop_row_spec s i : tidy nobody s -> implied (view_of s) -> domains g s -> cc s i <> 0%nat ->
  (forall x, feas (without_row s i) x -> rel_holds (type_of g (i_u s) i) (b_of g (i_u s) i) (combination (active_row rows (i_c s) i) x)) ->
  (forall D, Cl D -> D i = true -> forall x, feas (cut D (without_row s i)) x -> rel_holds (type_of g (i_u s) i) (b_of g (i_u s) i) (combination (active_row rows (i_c s) i) x)) ->
  pspec (drop_row s i) (@good g rows Cl Kn s) (verdict_holds (view_of s)) False.
Proof.
  intros T I D Ci RED REDC. unfold drop_row, remove_constraint_values.
  change (foldP _ (active_row rows (i_c s) i) s) with (foldP (drop_entry g nobody i) (active_row rows (i_c s) i) s).
  pose proof (without_row_step s i Ci RED REDC) as S1.
  assert (I1 : implied (without_row s i)) by (apply (implied_csame g rows _ _ S1 I); reflexivity).
  set (L := active_row rows (i_c s) i) in *. pose proof (active_row_nd g rows M s i) as NDL. fold L in NDL.
  assert (LV : forall k, In k (map fst L) -> cv s k <> 0%nat).
  { intros k Hk. unfold L in Hk. rewrite active_row_fst in Hk. now apply alive_In in Hk. }
  (* a variable of this row only is in no other row *)
  assert (ONLY : forall k, In k (map fst L) -> cv s k = 1%nat -> forall i', on_row (without_row s i) i' = true -> ~ In k (map fst (row i'))).
  { intros k Hk C1 i' Hi' Hin. cbn in Hi'. apply andb_true_iff in Hi'. destruct Hi' as [Oi' Ni']. apply on_row_cc in Oi'. apply negb_true_iff, Nat.eqb_neq in Ni'.
    assert (2 <= cv s k)%nat; [|lia]. assert (Ck : cv s k <> 0%nat) by lia. rewrite (td_column g rows _ _ _ T Ck), <- (map_length fst), active_column_fst.
    apply (two_length _ i' i); [apply alive_NoDup, (in_col_nd g rows M)|assumption| |]; apply alive_In; (split; [|assumption]); apply (in_swap g rows M).
    - exact Hin.
    - unfold L in Hk. rewrite active_row_fst in Hk. now apply alive_In in Hk. }
  eapply pspec_bind; [eapply pspec_impl; [apply (drop_entries_spec g nobody i L s)| | |]|].
  - assumption.
  - exact LV.
  - unfold L. rewrite <- (td_row g rows _ _ _ T Ci). lia.
  - intros k Hk. apply D. now apply LV.
  - intros a H. exact H.
  - cbn beta. intros v (-> & k & Hk & C1 & NC & OC). apply (verdict_cstep g rows _ _ _ S1).
    apply (free_unbounded (without_row s i) k); try assumption.
    + apply (cv_lt _ _ _ _ _ T). lia.
    + apply (on_var_cv s). lia.
    + now apply ONLY.
    + apply (td_tight _ _ _ _ T).
  - auto.
  - cbn beta. intros s1 (A1 & A2 & A3 & A4 & A5 & A6 & A7 & A8 & A9 & A10 & sol & B1 & B2 & B3). cbn [pspec].
    set (s2 := mark_constraint s1 i).
    assert (CCi : cc s2 i = 0%nat) by (change (cc s1 i = 0%nat); rewrite A5, Nat.eqb_refl, (td_row g rows _ _ _ T Ci); fold L; lia).
    assert (CCs : forall k, k <> i -> cc s2 k = cc s k) by (intros k Hk; change (cc s1 k = cc s k); rewrite A5; destruct (Nat.eqb_spec k i); [contradiction|lia]).
    assert (CVs : forall k, cv s2 k = (cv s k - if memb k (map fst L) then 1 else 0)%nat) by exact A6.
    assert (Eu : i_u s2 = add_gone (add_solved g (i_u s) sol) [i]) by (unfold s2, mark_constraint; cbn; now rewrite B1).
    assert (SF : forall k, In k (map fst sol) <-> In k (map fst L) /\ cv s k = 1%nat).
    { intros k. rewrite B2, filter_In. unfold nobody. cbn. rewrite andb_true_r, Nat.eqb_eq. reflexivity. }
    assert (FS : map fst (u_removed (i_u s2)) = map fst (u_removed (i_u s)) ++ map fst sol).
    { rewrite Eu. cbn. rewrite map_app, map_map. f_equal. apply map_ext. intros [? ?]. reflexivity. }
    assert (S2 : step (without_row s i) (view_of s2)).
    { apply (step_free_list g rows sol).
      - rewrite B2. now apply NoDup_filter.
      - apply (td_tight _ _ _ _ T).
      - exact I1.
      - intros k. apply eq_true_iff_eq. rewrite andb_true_iff, negb_true_iff, on_var_cv. change (on_var (without_row s i) k) with (on_var (view_of s) k). rewrite on_var_cv, CVs.
        rewrite <- not_true_iff_false, memb_In, SF. destruct (memb k (map fst L)) eqn:E; [apply memb_In in E; split; [intros H; split; [lia|intros [_ H']; lia]|intros [H1 H2]; assert (cv s k <> 1%nat) by tauto; lia]|apply memb_false in E; split; [intros H; split; [lia|tauto]|intros [H _]; lia]].
      - intros k. apply eq_true_iff_eq. cbn [on_row without_row]. rewrite andb_true_iff, negb_true_iff, Nat.eqb_neq.
        rewrite on_row_cc. change (con_active (i_c s) k) with (on_row (view_of s) k). rewrite on_row_cc.
        destruct (Nat.eq_dec k i) as [->|Hk]; [rewrite CCi; tauto|rewrite CCs by assumption; tauto].
      - cbn [view_of upds without_row]. rewrite Eu. reflexivity.
      - intros k v Hk. pose proof (in_map fst _ _ Hk) as Hk'. cbn in Hk'. apply SF in Hk'. destruct Hk' as [Hk1 Hk2]. repeat split.
        + apply (cv_lt _ _ _ _ _ T). lia.
        + apply (on_var_cv s). lia.
        + now apply ONLY.
        + apply (B3 k v Hk).
        + apply D. lia. }
    assert (ST : step (view_of s) (view_of s2)) by exact (cstep_trans g rows _ _ _ S1 S2).
    split; [|split; [exact ST|split; [|apply found_same; now rewrite Eu]]].
    2:{ apply (implied_csame g rows _ _ ST I). intros k d _. cbn [view_of upds]. rewrite Eu. reflexivity. }
    apply (gone_tidy g rows M s s2 i nobody T Ci CVs CCi CCs nobody); try assumption; try (rewrite Eu; reflexivity).
    + intros x H. apply A10 in H. destruct H as [H|(H1 & H2 & H3)]; [now left|]. right. split; [|assumption]. rewrite CVs. apply memb_In in H1. rewrite H1. lia.
    + rewrite FS. apply NoDup_app_intro.
      * apply (td_rem_nd _ _ _ _ T).
      * rewrite B2. now apply NoDup_filter.
      * intros x H1 H2. apply SF in H2. apply (td_rem _ _ _ _ T) in H1. lia.
    + intros k. rewrite FS, in_app_iff, SF, (td_rem _ _ _ _ T), CVs. destruct (memb k (map fst L)) eqn:E.
      * apply memb_In in E. pose proof (LV k E) as Hv. pose proof (cv_lt _ _ _ _ _ T Hv). split; [intros [(_ & H' & _)|[_ H']]; repeat split; (lia || assumption)|]. intros (_ & H' & _). right. split; [assumption|lia].
      * apply memb_false in E. rewrite Nat.sub_0_r. tauto.
Qed.

(** ** Entering a bound *)
Record rebound (u u' : updates) (j : nat) (d : bdir) (new : Qc) : Prop := mk_rb {
  rb_same : same_but_bounds u u';
  rb_apart : apart u';
  rb_moved : moved g u u' j d new;
  rb_p : forall k e, pbound g u' k e = pbound g u k e \/ (is_at k e j d = true /\ pbound g u' k e = Some (tighten d (bound_of g u j d) new));
  rb_acts : forall k e v, u_acts u' k e = Some v -> u_acts u k e = Some v \/ (is_at k e j d = true /\ v = new) }.
Lemma update_bound_rebound u j d new u' ch : apart u -> update_bound g u j d new = (u', ch) -> rebound u u' j d new /\ ch = change_of d (bound_of g u j d) new.
Proof.
  intros A E. pose proof (update_bound_ok g u j d new A) as H. rewrite E in H. destruct H as (H1 & H2 & H3 & H4 & H5 & H6). split; [|assumption].
  constructor; try assumption.
  - intros k e. rewrite H5. destruct (is_at k e j d); [right; now split|now left].
  - intros k e v. rewrite H6. destruct (is_at k e j d); [discriminate|now left].
Qed.
Lemma update_activity_acts u j d new u' ch : update_activity_bound g u j d new = (u', ch) ->
  forall k e, u_acts u' k e = u_acts u k e \/ (is_at k e j d = true /\ u_acts u' k e = Some new).
Proof.
  unfold update_activity_bound, compare_update, is_at. intros E k e.
  destruct (u_acts u j d), (u_bounds u j d), (vbound (gvar g j) d); try (destruct (match d with Lower => _ | Upper => _ end)); injection E as <- <-; cbn; unfold put2;
    try (now left); destruct (Nat.eqb k j && bdir_eqb e d); (now left) || (right; now split).
Qed.
Lemma update_activity_rebound u j d new u' ch : apart u -> update_activity_bound g u j d new = (u', ch) -> rebound u u' j d new /\ ch = change_of d (bound_of g u j d) new.
Proof.
  intros A E. pose proof (update_activity_bound_ok g u j d new A) as H. rewrite E in H. destruct H as (H1 & H2 & H3 & H4 & H5). split; [|assumption].
  constructor; try assumption. intros k e v V. destruct (update_activity_acts u j d new u' ch E k e) as [X|[X1 X2]]; [left; congruence|right; split; [assumption|congruence]].
Qed.
Lemma bound_holds_trans d a b c : bound_holds d a b -> bound_holds d b c -> bound_holds d a c.
Proof. destruct d; cbn; intros; qlra. Qed.
Lemma bound_holds_refl d a : bound_holds d a a.
Proof. destruct d; cbn; apply Qcle_refl. Qed.
Lemma rebound_tight u u' j d new : tight g u -> rebound u u' j d new -> tight g u'.
Proof.
  intros T [_ _ MV P _] k e a v B PB. rewrite MV in B. specialize (P k e). destruct (is_at_spec k e j d) as [[EK ED]|N]; [rewrite EK, ED in *; clear EK ED|].
  - injection B as <-. destruct P as [P|[_ P]].
    + rewrite PB in P. pose proof (tighten_holds d (bound_of g u j d) new (tighten d (bound_of g u j d) new)) as [H _].
      destruct (H (bound_holds_refl _ _)) as [H1 _]. destruct (bound_of g u j d) as [o|] eqn:Bo.
      * eapply bound_holds_trans; [apply (T j d o v Bo); congruence|]. now apply H1.
      * exfalso. rewrite bound_of_cases, <- P in Bo. destruct (u_acts u j d); discriminate.
    + rewrite PB in P. injection P as <-. apply bound_holds_refl.
  - destruct P as [P|[P _]]; [|discriminate]. rewrite P in PB. now apply (T k e a v).
Qed.
Lemma rebound_crossed u u' j d new k : rebound u u' j d new -> crossed g u k -> crossed g u' k.
Proof.
  intros [_ _ MV _] (l & h & L & H & C). unfold crossed. rewrite !MV.
  assert (K : forall e o, bound_of g u j e = Some o -> bound_holds e o (tighten e (bound_of g u j e) new)).
  { intros e o E. pose proof (tighten_holds e (bound_of g u j e) new (tighten e (bound_of g u j e) new)) as [X _].
    destruct (X (bound_holds_refl _ _)) as [X1 _]. now apply X1. }
  destruct (is_at_spec k Lower j d) as [[K1 K2]|N1]; destruct (is_at_spec k Upper j d) as [[K3 K4]|N2].
  - congruence.
  - subst k. subst d. exists (tighten Lower (bound_of g u j Lower) new), h. repeat split; auto. specialize (K Lower l L). cbn in K. qlra.
  - subst k. subst d. exists l, (tighten Upper (bound_of g u j Upper) new). repeat split; auto. specialize (K Upper h H). cbn in K. qlra.
  - exists l, h. now rewrite L, H.
Qed.
Lemma fixed_crossed u j : fixed_value g u j <> None -> crossed g u j.
Proof.
  unfold fixed_value, crossed. intros H. destruct (bound_of g u j Lower) as [l|], (bound_of g u j Upper) as [h|]; try congruence.
  destruct (qeqb l h) eqn:E; [|congruence]. qb. exists l, h. repeat split. subst. apply Qcle_refl.
Qed.
Definition same_counts (s s' : pindex) : Prop := c_var (i_c s') = c_var (i_c s) /\ c_con (i_c s') = c_con (i_c s).
Lemma set_bound_tidy J s u' j d new : tidy J s -> rebound (i_u s) u' j d new -> (cv s j <> 0%nat \/ active_column g (i_c s) j = []) ->
  pspec (apply_change g (with_u s u') j d (change_of d (bound_of g (i_u s) j d) new)) (fun s' => tidy J s' /\ i_u s' = u' /\ same_counts s s') (fun _ => False) False.
Proof.
  intros T RB J0. eapply pspec_impl; [apply (apply_change_spec g rows M s u' j d new (td_acts _ _ _ _ T) (rb_moved _ _ _ _ _ RB) J0)| |auto|auto].
  cbn beta. intros s' ([R1 R2 R3 R4 R5] & AO & Sub). cbn [with_u i_u i_c i_q] in *. split; [|split; [assumption|split; assumption]].
  destruct (rb_same _ _ _ _ _ RB) as [B1 B2 B3 B4 B5].
  assert (CV : forall k, cv s' k = cv s k) by (intros k; unfold cv; now rewrite R2).
  assert (CC : forall k, cc s' k = cc s k) by (intros k; unfold cc; now rewrite R3).
  constructor.
  - rewrite R2. apply (td_nv _ _ _ _ T).
  - rewrite R3. apply (td_nc _ _ _ _ T).
  - pose proof (td_bip _ _ _ _ T) as [H1 H2]. unfold bip, alive in *. split.
    + intros k. rewrite CV. intros H. rewrite H1 by assumption. f_equal. apply filter_ext. intros x. now rewrite CC.
    + intros k. rewrite CC. intros H. rewrite H2 by assumption. f_equal. apply filter_ext. intros x. now rewrite CV.
  - rewrite R1, B4. apply (td_rem_nd _ _ _ _ T).
  - intros k. rewrite R1, B4, CV. apply (td_rem _ _ _ _ T).
  - rewrite R1, B5. apply (td_gone_nd _ _ _ _ T).
  - intros k. rewrite R1, B5, CC. apply (td_gone _ _ _ _ T).
  - intros k. rewrite CC, R4. apply (td_bq _ _ _ _ T).
  - intros k. rewrite CC, R4. apply (td_bq' _ _ _ _ T).
  - intros k. rewrite CV, R5. apply (td_sq _ _ _ _ T).
  - intros k H. rewrite R1. apply Sub in H. destruct H as [H|[-> H]]; [|now apply fixed_crossed]. apply (rebound_crossed _ _ _ _ _ _ RB). now apply (td_sub _ _ _ _ T).
  - rewrite R1. apply (rb_apart _ _ _ _ _ RB).
  - rewrite R1. apply (rebound_tight _ _ _ _ _ (td_tight _ _ _ _ T) RB).
  - intros k r. rewrite CC, R1. unfold type_of. rewrite B2. apply (td_range _ _ _ _ T).
  - exact AO.
Qed.

(** ** Entering several bounds of one variable *)
Lemma enter_bounds_spec J j : forall l s, tidy J s -> (cv s j <> 0%nat \/ active_column g (i_c s) j = []) ->
  pspec (foldP (fun s '(d, x) => let (u, change) := update_bound g (i_u s) j d x in apply_change g (with_u s u) j d change) l s)
    (fun s' => tidy J s' /\ same_counts s s' /\ same_but_bounds (i_u s) (i_u s') /\
       (forall k d, k <> j -> bound_of g (i_u s') k d = bound_of g (i_u s) k d /\ pbound g (i_u s') k d = pbound g (i_u s) k d) /\
       (forall x, within g (i_u s') j x <-> within g (i_u s) j x /\ forall d v, In (d, v) l -> bound_holds d v x) /\
       (forall x, pwithin g (i_u s') j x -> pwithin g (i_u s) j x /\ forall d v, In (d, v) l -> bound_holds d v x) /\
       (forall k e v, u_acts (i_u s') k e = Some v -> u_acts (i_u s) k e = Some v)) (fun _ => False) False.
Proof.
  induction l as [|[d v] l IH]; intros s T J0; cbn [foldP].
  - cbn [pspec]. split; [assumption|]. split; [now split|]. split; [now constructor|]. split; [now split|]. split; [intros x|split; [intros x|auto]].
    + split; [intros H; split; [assumption|intros ? ? []]|intros H; apply H].
    + intros H. split; [assumption|intros ? ? []].
  - destruct (update_bound g (i_u s) j d v) as [u' ch] eqn:UB.
    destruct (update_bound_rebound _ _ _ _ _ _ (td_apart _ _ _ _ T) UB) as [RB ->].
    pose proof (update_bound_within _ _ _ _ _ _ _ (td_apart _ _ _ _ T) UB) as [W1 _].
    pose proof (update_bound_ok g (i_u s) j d v (td_apart _ _ _ _ T)) as UO. rewrite UB in UO. destruct UO as (_ & _ & _ & UO1 & UO2 & UO3).
    eapply pspec_bind; [eapply pspec_impl; [apply (set_bound_tidy J s u' j d v T RB J0)|intros a H; exact H|intros ? []|auto]|].
    cbn beta. intros s1 (T1 & U1 & [C1 C2]).
    eapply pspec_impl; [apply (IH s1 T1)| |auto|auto].
    + destruct J0 as [J0|J0]; [left; unfold cv; now rewrite C1|right]. unfold active_column, con_active in *. now rewrite C2.
    + cbn beta. intros s2 (T2 & [C3 C4] & SB & O & W2 & P2 & AC). rewrite U1 in *. destruct (rb_same _ _ _ _ _ RB) as [B1 B2 B3 B4 B5]. destruct SB as [D1 D2 D3 D4 D5].
      split; [assumption|]. split; [split; congruence|]. split; [constructor; congruence|]. split; [|split; [|split]].
      * intros k e N. destruct (O k e N) as [O1 O2]. rewrite O1, O2, UO1, UO2. destruct (is_at_spec k e j d) as [[-> _]|]; [congruence|now split].
      * intros x. rewrite W2, W1. split.
        -- intros [[H1 H2] H3]. split; [assumption|]. intros e w [E|E]; [injection E as <- <-; assumption|now apply H3].
        -- intros [H1 H2]. split; [split; [assumption|apply H2; now left]|]. intros e w E. apply H2. now right.
      * intros x H. destruct (P2 x H) as [H1 H2].
        assert (K : obound_holds d (bound_of g (i_u s) j d) x /\ bound_holds d v x).
        { apply tighten_holds. apply (H1 d). rewrite UO2. destruct (is_at_spec j d j d) as [_|N]; [reflexivity|]. exfalso. apply N. now split. }
        split.
        -- intros e. destruct (bdir_eqb_spec e d) as [->|N].
           ++ intros w P. destruct (bound_of g (i_u s) j d) as [b|] eqn:Bd.
              ** eapply bound_holds_trans; [apply (td_tight _ _ _ _ T j d b w Bd P)|]. now apply K.
              ** exfalso. rewrite bound_of_cases, P in Bd. destruct (u_acts (i_u s) j d); discriminate.
           ++ specialize (H1 e). rewrite UO2 in H1. destruct (is_at_spec j e j d) as [[_ E]|_]; [congruence|exact H1].
        -- intros e w [E|E]; [injection E as <- <-; apply K|now apply H2].
      * intros k e w X. apply AC in X. rewrite UO3 in X. destruct (is_at k e j d); [discriminate|assumption].
Qed.
End Bound.
