(** * Presolving: rows that are bounds *)
From Verif Require Import SpecGeneral SparseP LinAlg KindP InitP.
From Verif Require Export PreBound.
Local Open Scope Qc_scope.

Section BoundRule.
Variables (g : general) (rows : list svec).
Local Notation n := (nr_vars g).
Local Notation m := (g_rows g).
Local Notation row i := (nth i rows []).
Local Notation col j := (nth j (g_cols g) []).
Context {Cl : (nat -> bool) -> Prop} {Kn : nat -> bool}.
Local Notation step := (cstep g rows Cl).
Local Notation feas := (feas g rows).
Local Notation vcost := (vcost g).
Local Notation implied := (implied g rows).
Local Notation tidy := (tidy g rows).
Local Notation in_row := (in_row rows).
Local Notation in_col := (in_col g).
Local Notation verdict_holds := (verdict_holds g rows).
Hypothesis M : matrix_ok g rows.

(** the pending variable gets its value *)
Lemma tidy_solved J J' s s' j v : tidy J s -> J j = true -> cv s j = 0%nat -> (j < n)%nat -> (forall k, J' k = J k && negb (Nat.eqb k j)) ->
  i_u s' = add_solved g (i_u s) [(j, v)] -> i_c s' = i_c s -> i_q s' = i_q s -> i_act s' = i_act s -> tidy J' s'.
Proof.
  intros [H1 H2 H3 H4 H5 H6 H7 H8 H9 H10 H11 H12 H13 H14 H15] Jj Cj Lj HJ Eu Ec Eq Ea. destruct s' as [q' u' c' a']. cbn in *. subst.
  constructor; try assumption.
  - cbn. rewrite map_app. apply NoDup_app_intro; [assumption|repeat constructor; auto|]. intros k Hk [<-|[]]. apply H5 in Hk. destruct Hk as (_ & _ & Hk). cbn in Hk. congruence.
  - intros k. cbn. rewrite map_app, in_app_iff, H5, HJ. cbn. change (cv _ k) with (cv s k). destruct (Nat.eqb_spec k j) as [->|D].
    + rewrite andb_false_r. split; [intros _; now split|intros _; right; now left].
    + rewrite andb_true_r. split; [intros [H|[E|[]]]; [assumption|congruence]|now left].
  - destruct H15 as [X1 X2 X3 X4 X5]. constructor; assumption.
Qed.
Lemma tidy_push_slack J s j : tidy J s -> (cv s j <= 1)%nat -> v_cost (gvar g j) = 0 -> tidy J (push_slack s j).
Proof.
  intros [H1 H2 H3 H4 H5 H6 H7 H8 H9 H10 H11 H12 H13 H14 H15] C Z. constructor; try assumption.
  - intros k [<-|Hk]; [now split|now apply H10].
  - destruct H15 as [X1 X2 X3 X4 X5]. constructor; assumption.
Qed.

(** what happens to a variable after one of its rows is gone *)
Lemma queue_variable_spec w s j J : tidy J s -> J j = Nat.eqb (cv s j) 0 -> (forall k, k <> j -> J k = false) -> (j < n)%nat ->
  feasible_value g (i_u s) j <> None -> implied w -> upds w = i_u s -> (forall i, on_row w i = on_row (view_of s) i) ->
  (forall k, on_var w k = on_var (view_of s) k || Nat.eqb k j) ->
  (cv s j = 0%nat -> forall i, on_row w i = true -> ~ In j (map fst (row i))) ->
  pspec (queue_variable g s j) (fun s' => tidy nobody s' /\ step w (view_of s') /\ implied (view_of s') /\ u_acts (i_u s') = u_acts (i_u s)) (verdict_holds w) False.
Proof.
  intros T Jj Jn Lj FV I U R V NI.
  assert (FIN : forall s' sol, map fst sol = (if Nat.eqb (cv s j) 0 then [j] else []) -> i_u s' = add_solved g (i_u s) sol -> i_c s' = i_c s ->
     (forall k v, In (k, v) sol -> eliminated g (i_u s) k v) -> step w (view_of s') /\ implied (view_of s') /\ u_acts (i_u s') = u_acts (i_u s)).
  { intros s' sol Ms Eu Ec El.
    assert (S : step w (view_of s')).
    { apply (step_free_list g rows sol).
      - rewrite Ms. destruct (Nat.eqb (cv s j) 0); repeat constructor; auto.
      - rewrite U. apply (td_tight _ _ _ _ T).
      - exact I.
      - intros k. rewrite V, Ms. cbn [view_of on_var]. rewrite Ec. change (var_active (i_c s) k) with (on_var (view_of s) k).
        destruct (Nat.eqb_spec (cv s j) 0) as [Z|Z]; cbn [memb existsb].
        + destruct (Nat.eqb_spec k j) as [->|D]; cbn; [rewrite andb_false_r; now apply (on_var_false s)|now rewrite orb_false_r, andb_true_r].
        + rewrite andb_true_r. destruct (Nat.eqb_spec k j) as [->|D]; [|now rewrite orb_false_r]. rewrite orb_true_r. now apply (on_var_cv s).
      - intros i. cbn [view_of on_row]. rewrite Ec. symmetry. apply R.
      - rewrite U. exact Eu.
      - intros k v Hk. assert (In k (map fst sol)) by now apply (in_map fst) in Hk. rewrite Ms in H. destruct (Nat.eqb_spec (cv s j) 0) as [Z|Z]; [|contradiction].
        destruct H as [<-|[]]. split; [assumption|]. split; [rewrite V, Nat.eqb_refl; apply orb_true_r|]. split; [now apply NI|]. rewrite U. split; [now apply El|assumption]. }
    split; [assumption|]. split; [|rewrite Eu; reflexivity]. apply (implied_csame g rows _ _ S I). intros k d _. cbn [view_of upds]. rewrite Eu, U. reflexivity. }
  unfold queue_variable. fold (cv s j). destruct (cv s j) as [|[|c]] eqn:Cj; cbn [Nat.eqb] in FIN, Jj.
  - destruct (qzero (v_cost (gvar g j))) eqn:Z; qb.
    + destruct (feasible_value g (i_u s) j) as [v|] eqn:Fv; [|congruence]. cbn [unwrap pbind pspec].
      assert (Eu : i_u (mark_variable s j (Solved v)) = add_solved g (i_u s) [(j, v)]) by (unfold add_solved; cbn; rewrite Z; f_equal; ring).
      split.
      * apply (tidy_solved J nobody s _ j v); try assumption; try reflexivity. intros k. unfold nobody. destruct (Nat.eqb_spec k j); [now rewrite andb_false_r|now rewrite Jn].
      * apply (FIN _ [(j, v)]); try reflexivity; [exact Eu|]. intros k x [E|[]]. injection E as <- <-. left. now split.
    + destruct (optimize_column g (v_cost (gvar g j)) (bound_of g (i_u s) j Lower) (bound_of g (i_u s) j Upper)) as [v|v| |] eqn:OC.
      * cbn [pbind pspec]. split.
        -- apply (tidy_solved J nobody s _ j v); try assumption; try reflexivity. intros k. unfold nobody. destruct (Nat.eqb_spec k j); [now rewrite andb_false_r|now rewrite Jn].
        -- apply (FIN _ [(j, v)]); try reflexivity. intros k x [E|[]]. injection E as <- <-. right. now split.
      * cbn [pbind pspec]. destruct (optimize_column_stop _ _ _ _ _ OC) as [-> _].
        apply (free_unbounded g rows w j); try assumption.
        -- rewrite V, Nat.eqb_refl. apply orb_true_r.
        -- now apply NI.
        -- rewrite U. apply (td_tight _ _ _ _ T).
        -- rewrite U. exact OC.
      * exfalso. unfold optimize_column in OC. destruct (qzero (v_cost (gvar g j))) eqn:Z'; qb; [contradiction|].
        destruct (match g_objective g with Minimize => _ | Maximize => _ end); discriminate.
      * exfalso. unfold optimize_column in OC. destruct (qzero (v_cost (gvar g j))) eqn:Z'; [discriminate|].
        destruct (match g_objective g with Minimize => _ | Maximize => _ end); discriminate.
  - assert (T' : tidy nobody s) by (apply (tidy_ext g rows J); [|assumption]; intros k; destruct (Nat.eq_dec k j) as [->|D]; [assumption|now apply Jn]).
    destruct (qzero (v_cost (gvar g j))) eqn:Z; qb; cbn [pspec]; (split; [|apply (FIN _ []); try reflexivity; [rewrite add_solved_nil; reflexivity|intros ? ? []]]).
    + apply tidy_push_slack; [assumption|lia|assumption].
    + assumption.
  - assert (T' : tidy nobody s) by (apply (tidy_ext g rows J); [|assumption]; intros k; destruct (Nat.eq_dec k j) as [->|D]; [assumption|now apply Jn]).
    cbn [pspec]. split; [assumption|]. apply (FIN _ []); try reflexivity; [rewrite add_solved_nil; reflexivity|intros ? ? []].
Qed.

Lemma bound_constraint_rule_spec s i : tidy nobody s -> implied (view_of s) -> cc s i = 1%nat ->
  pspec (bound_constraint_rule g rows s i) (@good g rows Cl Kn s) (verdict_holds (view_of s)) False.
Proof.
  intros T I C1. assert (Ci : cc s i <> 0%nat) by lia. unfold bound_constraint_rule.
  pose proof (td_row g rows _ _ _ T Ci) as LR. rewrite C1 in LR.
  destruct (active_row rows (i_c s) i) as [|[j c] [|? ?]] eqn:AR; try discriminate. clear LR. cbn [hd_error unwrap pbind].
  assert (Hj : In (j, c) (row i) /\ cv s j <> 0%nat) by (apply (active_row_In rows s i j c); rewrite AR; now left).
  destruct Hj as [Hj Cj]. pose proof (cv_lt _ _ _ _ _ T Cj) as Lj. assert (Nc : c <> 0) by (apply (mo_nz _ _ M _ _ _ (proj1 (mo_in _ _ M i j c) Hj))).
  set (changes := bounds_from (b_of g (i_u s) i) (type_of g (i_u s) i) c).
  rewrite (dec_var_ok s j) by assumption. cbn [pbind].
  set (s0 := with_c s _). rewrite (dec_con_ok s0 i) by exact Ci. cbn [pbind].
  set (c1 := mk_pcounters (lowered (c_var (i_c s)) j) (lowered (c_con (i_c s)) i) (c_act (i_c s))).
  set (s1 := mark_constraint (with_c s c1) i).
  change (mark_constraint (with_c s0 _) i) with s1.
  assert (CV1 : forall k, cv s1 k = (cv s k - if Nat.eqb k j then 1 else 0)%nat) by (intros; apply nth_lowered).
  assert (CC1 : forall k, cc s1 k = (cc s k - if Nat.eqb k i then 1 else 0)%nat) by (intros; apply nth_lowered).
  set (J := fun k => Nat.eqb k j && Nat.eqb (cv s j) 1).
  assert (G1 : forall k, cv s1 k = (cv s k - if memb k (map fst (active_row rows (i_c s) i)) then 1 else 0)%nat).
  { intros k. rewrite CV1, AR. cbn. now rewrite orb_false_r. }
  assert (G2 : cc s1 i = 0%nat) by (rewrite CC1, Nat.eqb_refl; lia).
  assert (G3 : forall k, k <> i -> cc s1 k = cc s k) by (intros k D; rewrite CC1; destruct (Nat.eqb_spec k i); [contradiction|lia]).
  assert (T1 : tidy J s1).
  { apply (gone_tidy g rows M s s1 i nobody T Ci G1 G2 G3 J); try reflexivity.
    - cbn. apply lowered_length.
    - cbn. apply lowered_length.
    - intros x H. now left.
    - apply (td_rem_nd _ _ _ _ T).
    - intros k. change (u_removed (i_u s1)) with (u_removed (i_u s)). rewrite (td_rem _ _ _ _ T), CV1. unfold J, nobody. destruct (Nat.eqb_spec k j) as [->|D]; cbn [andb].
      + split; [intros (_ & H & _); contradiction|]. intros (_ & H1 & H2). apply Nat.eqb_neq in H2. lia.
      + rewrite Nat.sub_0_r. reflexivity. }
  eapply pspec_bind; [eapply pspec_impl; [apply (enter_bounds_spec g rows M J j changes s1 T1)| | |]|].
  - destruct (Nat.eq_dec (cv s j) 1) as [E|E]; [right|left; rewrite CV1, Nat.eqb_refl; lia].
    destruct (active_column g (i_c s1) j) as [|[i' c'] l] eqn:AC; [reflexivity|]. exfalso.
    assert (H : In (i', c') (col j) /\ cc s1 i' <> 0%nat) by (apply active_column_In; rewrite AC; now left). destruct H as [H1 H2].
    assert (D : i' <> i) by (intros ->; contradiction). rewrite G3 in H2 by assumption.
    apply (gone_other g rows M s s1 i nobody T Ci G1 G2 G3 i' j c' D H2 (proj2 (mo_in _ _ M i' j c') H1)); [assumption|]. rewrite CV1, Nat.eqb_refl. lia.
  - intros a H. exact H.
  - intros ? [].
  - auto.
  - cbn beta. intros s2 (T2 & [V2 K2] & [B1 B2 B3 B4 B5] & O2 & W2 & P2 & AC2).
    assert (CV2 : forall k, cv s2 k = cv s1 k) by (intros; unfold cv; now rewrite V2).
    assert (CC2 : forall k, cc s2 k = cc s1 k) by (intros; unfold cc; now rewrite K2).
    set (w2 := mk_view (var_active (i_c s)) (fun k => con_active (i_c s) k && negb (Nat.eqb k i)) (i_u s2)).
    assert (TY : forall k, type_of g (i_u s2) k = type_of g (i_u s) k) by (intros; unfold type_of; now rewrite B2).
    assert (BB : forall k, b_of g (i_u s2) k = b_of g (i_u s) k) by (intros; unfold b_of; now rewrite B1).
    assert (RI : forall x, combination (only (var_active (i_c s)) (row i)) x = c * x j).
    { intros x. change (only (var_active (i_c s)) (row i)) with (active_row rows (i_c s) i). rewrite AR. cbn. ring. }
    assert (OV : forall k d, k <> j -> bound_of g (i_u s2) k d = bound_of g (i_u s) k d /\ pbound g (i_u s2) k d = pbound g (i_u s) k d) by exact O2.
    assert (OJ : on_var (view_of s) j = true) by now apply on_var_cv.
    assert (S2 : step (view_of s) w2).
    { assert (BK : forall Dn x, feas (cut Dn w2) x -> feas (cut Dn (view_of s)) x).
      { intros Dn x [F1 F2]. split.
        + intros k Hk. destruct (Nat.eq_dec k j) as [->|D]; [now apply (P2 _ (F1 j Hk))|]. intros d. cbn [cut view_of upds]. rewrite <- (proj2 (OV k d D)). now apply (F1 k).
        + intros k Hk. apply cut_row in Hk. destruct Hk as [Hk Dk]. destruct (Nat.eq_dec k i) as [->|D].
          * cbn [cut view_of upds on_var]. rewrite RI. apply (bounds_from_ok _ _ _ _ Nc). apply (P2 _ (F1 j OJ)).
          * cbn [cut view_of upds on_var]. rewrite <- TY, <- BB. apply (F2 k). apply cut_row. split; [|assumption]. cbn [w2 on_row]. cbn [view_of on_row] in Hk. rewrite Hk. destruct (Nat.eqb_spec k i); [contradiction|reflexivity]. }
      apply cstep_same; try reflexivity; try assumption; [|intros Dn _; apply BK]. intros x. split.
      - intros F. pose proof F as [F1 F2]. split.
        + intros k Hk. destruct (Nat.eq_dec k j) as [->|D].
          * apply within_pwithin; [apply (td_tight _ _ _ _ T2)|]. apply W2. split; [now apply (I x F)|]. apply (bounds_from_ok _ _ _ _ Nc). rewrite <- (RI x). apply (F2 i). now apply on_row_cc.
          * intros d. cbn [w2 upds]. rewrite (proj2 (OV k d D)). now apply (F1 k).
        + intros k Hk. cbn [w2 upds on_var on_row] in *. apply andb_true_iff in Hk. rewrite TY, BB. now apply (F2 k).
      - intros F. pose proof (BK (fun _ => true) x (feas_cut g rows w2 _ x F)) as [F1 F2]. split; [exact F1|]. intros k Hk. apply (F2 k). apply cut_row. now split. }
    assert (I2 : implied w2).
    { apply (implied_cstep g rows _ _ S2 I). intros x k F Hk W. destruct (Nat.eq_dec k j) as [->|D].
      - apply W2. split; [exact W|]. apply P2. now apply (proj1 F).
      - intros d. cbn [w2 upds]. rewrite (proj1 (OV k d D)). apply W. }
    destruct (feasible_value g (i_u s2) j) as [v|] eqn:FV.
    + eapply pspec_impl; [apply (queue_variable_spec w2 s2 j J T2); try assumption; try reflexivity| | |auto].
      * unfold J. rewrite Nat.eqb_refl, CV2, CV1, Nat.eqb_refl. cbn [andb]. destruct (Nat.eqb_spec (cv s j) 1), (Nat.eqb_spec (cv s j - 1) 0); try reflexivity; lia.
      * intros k D. unfold J. destruct (Nat.eqb_spec k j); [contradiction|reflexivity].
      * congruence.
      * intros k. apply eq_true_iff_eq. cbn [w2 on_row]. rewrite andb_true_iff, negb_true_iff, Nat.eqb_neq, on_row_cc, CC2.
        change (con_active (i_c s) k) with (on_row (view_of s) k). rewrite on_row_cc.
        destruct (Nat.eq_dec k i) as [->|Hk]; [rewrite G2; tauto|rewrite G3 by assumption; tauto].
      * intros k. apply eq_true_iff_eq. change (on_var w2 k) with (on_var (view_of s) k). rewrite orb_true_iff, Nat.eqb_eq, !on_var_cv, CV2, CV1.
        destruct (Nat.eqb_spec k j) as [->|D]; [tauto|]. rewrite Nat.sub_0_r. tauto.
      * intros Z k Hk In'. cbn [w2 on_row] in Hk. apply andb_true_iff in Hk. destruct Hk as [H1 H2]. apply negb_true_iff, Nat.eqb_neq in H2. apply (on_row_cc s) in H1.
        apply in_map_iff in In'. destruct In' as ([j' c'] & E & In'). cbn in E. subst j'.
        apply (gone_other g rows M s s1 i nobody T Ci G1 G2 G3 k j c' H2 H1 In'); [assumption|]. now rewrite <- CV2.
      * cbn beta. intros s3 (T3 & S3 & I3 & U3). split; [assumption|]. split; [exact (cstep_trans g rows _ _ _ S2 S3)|]. split; [assumption|].
        intros k e v' _ X. left. apply AC2. now rewrite <- U3.
      * intros v' H. exact (verdict_cstep g rows _ _ _ S2 H).
    + cbn [pspec]. apply (verdict_cstep g rows _ _ _ S2). intros x F. exact (feasible_value_none _ _ _ (x j) FV (I2 x F j OJ)).
Qed.
End BoundRule.
