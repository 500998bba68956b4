(** * Presolving: the rules do the same in a debug build and in a release build *)
From Verif Require Import SpecGeneral SparseP LinAlg KindP InitP.
From Verif Require Export PreAgree.
Local Open Scope Qc_scope.

Section Rules.
Variable on : site -> bool.
Variables (g : general) (rows : list svec).
Local Notation n := (nr_vars g).
Local Notation m := (g_rows g).
Local Notation row i := (nth i rows []).
Local Notation col j := (nth j (g_cols g) []).
Local Notation in_row := (in_row rows).
Local Notation in_col := (in_col g).
Hypothesis M : matrix_ok g rows.
Local Notation books := (books g rows).

(** what holds between two rules, in every run *)
Definition calm (s : pindex) : Prop := books nobody s /\ opened g (i_u s) /\ ranged g s.
Lemma calm_same s s' : books nobody s' -> u_bounds (i_u s') = u_bounds (i_u s) -> u_acts (i_u s') = u_acts (i_u s) -> u_types (i_u s') = u_types (i_u s) ->
  (forall i, cc s' i <> 0%nat -> cc s i <> 0%nat) -> calm s -> calm s'.
Proof using.
  intros T B A Y C (_ & O & R). split; [assumption|]. split.
  - apply (opened_bounds g (i_u s)); [|assumption]. intros j d. now apply bound_of_eq.
  - intros i r Ci. unfold type_of. rewrite Y. apply R. now apply C.
Qed.

(** ** Fixed variables *)
Lemma shift_b_here v : forall l u, (forall i, In i (map fst l) -> is_gone u i = false) ->
  foldP (fun u '(i, c) => change_b_d on g u i (- c * v)) l u = Go (shift_all g v u l).
Proof using.
  induction l as [|[i c] l IH]; intros u H; cbn [foldP shift_all fold_left]; [reflexivity|]. rewrite change_b_here by (apply H; now left). cbn [pbind].
  apply IH. intros k Hk. apply (H k). now right.
Qed.
Lemma fixed_variable_agree s j : calm s -> crossed g (i_u s) j -> cv s j <> 0%nat ->
  agree (fixed_variable_rule_d on g s j) (fixed_variable_rule g s j) calm False.
Proof using M.
  intros CALM CR Nj. pose proof CALM as (T & OP & RG). pose proof (bk_cv _ _ _ _ _ T Nj) as Lj.
  pose proof (bk_here _ _ _ _ _ T Nj) as HR. pose proof (bk_apart _ _ _ _ T) as AP.
  pose proof (opened_fixed g (i_u s) j OP CR) as NF. destruct CR as (l & h & Bl & Bh & _).
  unfold fixed_variable_rule, fixed_variable_rule_d. rewrite assert_ok by (now rewrite HR). rewrite fixed_value_here by assumption. cbn [pbind].
  destruct (fixed_value g (i_u s) j) as [v|] eqn:FV; [|congruence]. rewrite assert_run_ok by reflexivity. cbn [unwrap pbind].
  rewrite (active_column_here on g rows M) by assumption. cbn [pbind]. fold (shift_all g v (i_u s) (active_column g (i_c s) j)).
  set (L := active_column g (i_c s) j). pose proof (active_column_nd g rows M s j) as NDL. fold L in NDL.
  assert (ALIVE : alive (cc s) (in_col j) = map fst L) by (symmetry; apply active_column_fst).
  assert (CL : forall i, In i (map fst L) -> cc s i <> 0%nat).
  { intros i Hi. rewrite <- ALIVE in Hi. now apply alive_In in Hi. }
  assert (GL : forall i, In i (map fst L) -> is_gone (i_u s) i = false) by (intros i Hi; apply (bk_present _ _ _ _ _ T); now apply CL).
  rewrite shift_b_here by assumption. cbn [pbind].
  destruct (shift_all_spec g v L (i_u s) NDL) as (U1 & U2 & U3 & U4 & U5 & U6 & U7 & U8). set (u1 := shift_all g v (i_u s) L) in *.
  set (s0 := with_u s (add_cost u1 (v_cost (gvar g j) * v))).
  change (active_column_d on g (i_c s0) j) with (active_column_d on g (i_c s) j). rewrite (active_column_here on g rows M) by assumption. cbn [pbind].
  change (active_column g (i_c s0) j) with L. fold L.
  assert (CV : cv s j = length L) by (apply (bk_column _ _ _ _ _ T Nj)).
  eapply agree_bind; [eapply agree_spec; [apply (take_rows_here on g j L s0); [assumption|]|apply (take_rows_spec g j L s0)]|].
  - intros i Hi. unfold is_gone. cbn [s0 with_u i_u add_cost u_gone]. rewrite U6. now apply GL.
  - assumption.
  - exact CL.
  - change (cv s0 j) with (cv s j). lia.
  - cbn beta. intros s1 (A1 & A2 & A3 & A4 & A5 & A6 & A7 & A8 & A9 & A10 & A11 & A12).
    rewrite mark_variable_here by (rewrite A5, Nat.eqb_refl; change (cv s0 j) with (cv s j); lia). apply agree_go.
    set (s2 := mark_variable s1 j (Solved v)).
    assert (CVs : forall k, cv s2 k = (cv s k - if Nat.eqb k j then length L else 0)%nat) by (intros k; exact (A5 k)).
    assert (CCs : forall i, cc s2 i = (cc s i - if memb i (map fst L) then 1 else 0)%nat) by (intros k; exact (A6 k)).
    assert (CVj : cv s2 j = 0%nat) by (rewrite CVs, Nat.eqb_refl; lia).
    assert (CVk : forall k, k <> j -> cv s2 k = cv s k) by (intros k Hk; rewrite CVs; destruct (Nat.eqb_spec k j); [contradiction|lia]).
    assert (CC0 : forall i, cc s2 i <> 0%nat -> cc s i <> 0%nat) by (intros i; rewrite CCs; destruct (memb i (map fst L)); lia).
    assert (Ub : u_bounds (i_u s2) = u_bounds (i_u s)) by (cbn; rewrite A7; exact U3).
    assert (Ua : u_acts (i_u s2) = u_acts (i_u s)) by (cbn; rewrite A7; exact U4).
    assert (Ut : u_types (i_u s2) = u_types (i_u s)) by (cbn; rewrite A7; exact U1).
    assert (BO : forall k d, bound_of g (i_u s2) k d = bound_of g (i_u s) k d) by (intros; now apply bound_of_eq).
    assert (RM : u_removed (i_u s2) = u_removed (i_u s) ++ [(j, Solved v)]) by (cbn; rewrite A7; cbn; now rewrite U5).
    assert (GN : u_gone (i_u s2) = u_gone (i_u s) ++ filter (fun i => Nat.eqb (cc s i) 1) (map fst L)) by (cbn; rewrite A7; cbn; now rewrite U6).
    assert (V : forall k, var_active (i_c s2) k = var_active (i_c s) k && negb (Nat.eqb k j)).
    { intros k. rewrite !var_active_cv. destruct (Nat.eqb_spec k j) as [->|Hk]; [rewrite CVj, andb_false_r; reflexivity|rewrite CVk by assumption; now rewrite andb_true_r]. }
    apply (calm_same s); try assumption.
    constructor.
    + cbn. rewrite A3. exact (bk_nv _ _ _ _ T).
    + cbn. rewrite A4. exact (bk_nc _ _ _ _ T).
    + apply (bip_delete in_col in_row (in_swap g rows M) (in_row_nd g rows M) (cv s) (cc s) (cv s2) (cc s2) j); try assumption.
      * apply (bk_bip _ _ _ _ T).
      * intros i. now rewrite ALIVE.
    + rewrite RM, map_app. cbn. apply NoDup_app_intro.
      * apply (bk_rem_nd _ _ _ _ T).
      * repeat constructor. auto.
      * intros k H [<-|[]]. apply (bk_rem _ _ _ _ T) in H. destruct H as (_ & H & _). congruence.
    + intros k. rewrite RM, map_app, in_app_iff, (bk_rem _ _ _ _ T). cbn. destruct (Nat.eq_dec k j) as [->|Hk].
      * rewrite CVj. tauto.
      * rewrite CVk by assumption. intuition congruence.
    + rewrite GN. apply NoDup_app_intro.
      * apply (bk_gone_nd _ _ _ _ T).
      * apply NoDup_filter. assumption.
      * intros i H H'. apply (bk_gone _ _ _ _ T) in H. apply filter_In in H'. destruct H' as [H' _]. apply CL in H'. destruct H. contradiction.
    + intros i. rewrite GN, in_app_iff, (bk_gone _ _ _ _ T), filter_In, Nat.eqb_eq, CCs.
      destruct (memb i (map fst L)) eqn:E.
      * apply memb_In in E. pose proof (CL i E) as Ci. pose proof (bk_cc _ _ _ _ _ T Ci). split; [intros [[_ H']|[_ H']]; split; (lia || assumption)|].
        intros [_ H']. right. split; [assumption|lia].
      * apply memb_false in E. rewrite Nat.sub_0_r. tauto.
    + intros i H. change (In i (q_bound (i_q s1))). apply A11. rewrite CCs in H. change (q_bound (i_q s0)) with (q_bound (i_q s)). change (cc s0 i) with (cc s i).
      destruct (memb i (map fst L)) eqn:E; [right; apply memb_In in E; split; [assumption|lia]|]. left. apply (bk_bq _ _ _ _ T). lia.
    + intros i H. change (In i (q_bound (i_q s1))) in H. apply A11 in H. change (q_bound (i_q s0)) with (q_bound (i_q s)) in H. change (cc s0 i) with (cc s i) in H.
      rewrite CCs. destruct H as [H|[H H']].
      * apply (bk_bq' _ _ _ _ T) in H. lia.
      * apply memb_In in H. rewrite H. lia.
    + intros k H. change (In k (q_slack (i_q s1))) in H. rewrite A9 in H. apply (bk_sq _ _ _ _ T) in H. destruct H as [H1 H2]. split; [rewrite CVs; lia|assumption].
    + intros k H. change (In k (q_sub (i_q s1))) in H. rewrite A8 in H. apply (bk_sub _ _ _ _ T) in H. destruct H as (l' & h' & H1 & H2 & H3). exists l', h'. now rewrite !BO.
    + unfold apart. rewrite Ub, Ua. apply (bk_apart _ _ _ _ T).
    + pose proof (bk_acts _ _ _ _ T) as [O1 O2 O3 O4 O5].
      assert (CA : forall i e, ca s2 i e = ca s i e) by (intros i e; unfold ca; cbn; now rewrite A2).
      constructor.
      * cbn. now rewrite A2.
      * cbn. now rewrite A1.
      * intros i e Ci. rewrite CA, O3 by auto. unfold missing.
        assert (E : filter (lacks_bound g (i_u s2) e) (active_row rows (i_c s2) i) = filter (lacks_bound g (i_u s) e) (active_row rows (i_c s) i)).
        { unfold active_row. rewrite !filter_filter. apply filter_ext. intros [k c]. unfold lacks_bound. cbn [fst snd]. rewrite BO, V.
          destruct (Nat.eqb_spec k j) as [->|]; [|now rewrite andb_true_r]. destruct (bmul e c); rewrite ?Bl, ?Bh; now rewrite !andb_false_r. }
        now rewrite E.
      * intros i e Ci K. rewrite CA. apply O4; [auto|]. unfold cache in *. cbn in K. now rewrite A1 in K.
      * intros i e H Ci. rewrite CA. apply O5; [|auto]. change (In (i, e) (q_act (i_q s1))) in H. now rewrite A10 in H.
Qed.

(** ** Rows that are bounds *)
Lemma enter_bounds_agree J j : forall l s, books J s -> (cv s j <> 0%nat \/ active_column g (i_c s) j = []) -> (j < n)%nat -> is_removed (i_u s) j = false ->
  agree (foldP (fun s '(d, x) => let+ r := update_bound_d on g (i_u s) j d x in apply_change_d on g (with_u s (fst r)) j d (snd r)) l s)
    (foldP (fun s '(d, x) => let (u, change) := update_bound g (i_u s) j d x in apply_change g (with_u s u) j d change) l s)
    (fun s' => books J s' /\ same_counts s s' /\ same_but_bounds (i_u s) (i_u s') /\ (forall k d, k <> j -> bound_of g (i_u s') k d = bound_of g (i_u s) k d)) False.
Proof using M.
  induction l as [|[d v] l IH]; intros s T J0 Lj R; cbn [foldP].
  - apply agree_go. repeat (split; [first [assumption|now constructor]|]). reflexivity.
  - rewrite update_bound_here by assumption. cbn [pbind]. destruct (update_bound g (i_u s) j d v) as [u' ch] eqn:UB. cbn [fst snd].
    destruct (update_bound_rebound _ _ _ _ _ _ _ (bk_apart _ _ _ _ T) UB) as [RB ->].
    eapply agree_bind; [apply (enter_agree on g rows M J s u' j d v T RB J0 Lj R)|].
    cbn beta. intros s1 (T1 & U1 & [C1 C2]). destruct (rb_same _ _ _ _ _ _ RB) as [B1 B2 B3 B4 B5].
    eapply agree_impl; [apply (IH s1 T1)| |auto].
    + destruct J0 as [J0|J0]; [left; unfold cv; now rewrite C1|right]. unfold active_column, con_active in *. now rewrite C2.
    + assumption.
    + rewrite U1. unfold is_removed. now rewrite B4.
    + cbn beta. intros s2 (T2 & [C3 C4] & SB & O). rewrite U1 in *. destruct SB as [D1 D2 D3 D4 D5].
      split; [assumption|]. split; [split; congruence|]. split; [constructor; congruence|].
      intros k e N. rewrite (O k e N), (rb_moved _ _ _ _ _ _ RB). destruct (is_at_spec k e j d) as [[-> _]|]; [congruence|reflexivity].
Qed.
Lemma queue_variable_books s j J : books J s -> J j = Nat.eqb (cv s j) 0 -> (forall k, k <> j -> J k = false) -> (j < n)%nat -> feasible_value g (i_u s) j <> None ->
  pspec (queue_variable g s j) (fun s' => books nobody s' /\ i_c s' = i_c s /\ u_bounds (i_u s') = u_bounds (i_u s) /\ u_acts (i_u s') = u_acts (i_u s) /\ u_types (i_u s') = u_types (i_u s)) (fun _ => True) False.
Proof using M.
  intros T Jj Jn Lj FV.
  unfold queue_variable. fold (cv s j). destruct (cv s j) as [|[|c]] eqn:Cj; cbn [Nat.eqb] in Jj.
  - destruct (qzero (v_cost (gvar g j))) eqn:Z; qb.
    + destruct (feasible_value g (i_u s) j) as [v|] eqn:Fv; [|congruence]. cbn [unwrap pbind pspec]. split; [|now repeat split].
      apply (books_solved g rows J nobody s _ j v); try assumption; try reflexivity.
      * intros k. unfold nobody. destruct (Nat.eqb_spec k j); [now rewrite andb_false_r|now rewrite Jn].
      * unfold add_solved. cbn. rewrite Z. f_equal. ring.
    + destruct (optimize_column g (v_cost (gvar g j)) (bound_of g (i_u s) j Lower) (bound_of g (i_u s) j Upper)) as [v|v| |] eqn:OC; cbn [pbind pspec]; try exact Logic.I.
      * split; [|now repeat split]. apply (books_solved g rows J nobody s _ j v); try assumption; try reflexivity. intros k. unfold nobody. destruct (Nat.eqb_spec k j); [now rewrite andb_false_r|now rewrite Jn].
      * unfold optimize_column in OC. destruct (qzero (v_cost (gvar g j))) eqn:Z'; qb; [contradiction|].
        destruct (match g_objective g with Minimize => _ | Maximize => _ end); discriminate.
      * unfold optimize_column in OC. destruct (qzero (v_cost (gvar g j))) eqn:Z'; [discriminate|].
        destruct (match g_objective g with Minimize => _ | Maximize => _ end); discriminate.
  - assert (T' : books nobody s) by (apply (books_ext g rows J); [|assumption]; intros k; destruct (Nat.eq_dec k j) as [->|D]; [assumption|now apply Jn]).
    destruct (qzero (v_cost (gvar g j))) eqn:Z; qb; cbn [pspec]; (split; [|now repeat split]).
    + apply books_push_slack; [assumption|lia|assumption].
    + assumption.
  - assert (T' : books nobody s) by (apply (books_ext g rows J); [|assumption]; intros k; destruct (Nat.eq_dec k j) as [->|D]; [assumption|now apply Jn]).
    cbn [pspec]. split; [assumption|now repeat split].
Qed.
Lemma bound_constraint_agree s i : calm s -> cc s i = 1%nat ->
  agree (bound_constraint_rule_d on g rows s i) (bound_constraint_rule g rows s i) calm False.
Proof using M.
  intros (T & OP & RG) C1. assert (Ci : cc s i <> 0%nat) by lia. pose proof (bk_cc _ _ _ _ _ T Ci) as Li. unfold bound_constraint_rule, bound_constraint_rule_d.
  rewrite assert_ok by (fold (cc s i); now rewrite C1). rewrite (active_row_here on g rows M) by assumption. cbn [pbind].
  pose proof (bk_row g rows _ _ _ T Ci) as LR. rewrite C1 in LR.
  destruct (active_row rows (i_c s) i) as [|[j c] [|? ?]] eqn:AR; try discriminate. clear LR. rewrite assert_run_ok by reflexivity. cbn [hd_error unwrap pbind].
  assert (Hj : In (j, c) (row i) /\ cv s j <> 0%nat) by (apply (active_row_In rows s i j c); rewrite AR; now left).
  destruct Hj as [Hj Cj]. pose proof (bk_cv _ _ _ _ _ T Cj) as Lj.
  rewrite assert_ok by (fold (cv s j); apply negb_true_iff; now apply Nat.eqb_neq).
  rewrite b_of_here, type_of_here by now apply (bk_present _ _ _ _ _ T). cbn [pbind].
  set (changes := bounds_from (b_of g (i_u s) i) (type_of g (i_u s) i) c).
  rewrite (dec_var_ok s j) by assumption. cbn [pbind].
  set (s0 := with_c s _). rewrite (dec_con_ok s0 i) by exact Ci. cbn [pbind].
  set (c1 := mk_pcounters (lowered (c_var (i_c s)) j) (lowered (c_con (i_c s)) i) (c_act (i_c s))).
  set (s1 := mark_constraint (with_c s c1) i).
  change (mark_constraint (with_c s0 _) i) with s1. change (mark_constraint_d on (with_c s0 _) i) with (mark_constraint_d on (with_c s c1) i).
  assert (CV1 : forall k, cv s1 k = (cv s k - if Nat.eqb k j then 1 else 0)%nat) by (intros; apply nth_lowered).
  assert (CC1 : forall k, cc s1 k = (cc s k - if Nat.eqb k i then 1 else 0)%nat) by (intros; apply nth_lowered).
  rewrite mark_constraint_here by (change (cc s1 i = 0%nat); rewrite CC1, Nat.eqb_refl; lia). cbn [pbind]. change (mark_constraint (with_c s c1) i) with s1.
  set (J := fun k => Nat.eqb k j && Nat.eqb (cv s j) 1).
  assert (G1 : forall k, cv s1 k = (cv s k - if memb k (map fst (active_row rows (i_c s) i)) then 1 else 0)%nat).
  { intros k. rewrite CV1, AR. cbn. now rewrite orb_false_r. }
  assert (G2 : cc s1 i = 0%nat) by (rewrite CC1, Nat.eqb_refl; lia).
  assert (G3 : forall k, k <> i -> cc s1 k = cc s k) by (intros k D; rewrite CC1; destruct (Nat.eqb_spec k i); [contradiction|lia]).
  assert (T1 : books J s1).
  { apply (lost_books g rows M s s1 i nobody T Ci G1 G2 G3 J); try reflexivity.
    - cbn. apply lowered_length.
    - cbn. apply lowered_length.
    - intros x H. now left.
    - apply (bk_rem_nd _ _ _ _ T).
    - intros k. change (u_removed (i_u s1)) with (u_removed (i_u s)). rewrite (bk_rem _ _ _ _ T), CV1. unfold J, nobody. destruct (Nat.eqb_spec k j) as [->|D]; cbn [andb].
      + split; [intros (_ & H & _); contradiction|]. intros (_ & H1 & H2). apply Nat.eqb_neq in H2. lia.
      + rewrite Nat.sub_0_r. reflexivity. }
  pose proof (bk_here _ _ _ _ _ T Cj) as HR.
  eapply agree_bind; [apply (enter_bounds_agree J j changes s1 T1)|].
  - destruct (Nat.eq_dec (cv s j) 1) as [E|E]; [right|left; rewrite CV1, Nat.eqb_refl; lia].
    destruct (active_column g (i_c s1) j) as [|[i' c'] l] eqn:AC; [reflexivity|]. exfalso.
    assert (H : In (i', c') (col j) /\ cc s1 i' <> 0%nat) by (apply active_column_In; rewrite AC; now left). destruct H as [H1 H2].
    assert (D : i' <> i) by (intros ->; contradiction). rewrite G3 in H2 by assumption.
    apply (lost_other g rows M s s1 i nobody T Ci G1 G2 G3 i' j c' D H2 (proj2 (mo_in _ _ M i' j c') H1)); [assumption|]. rewrite CV1, Nat.eqb_refl. lia.
  - assumption.
  - exact HR.
  - cbn beta. intros s2 (T2 & [V2 K2] & SB & OV). pose proof SB as [B1 B2 B3 B4 B5].
    assert (CV2 : forall k, cv s2 k = cv s1 k) by (intros; unfold cv; now rewrite V2).
    assert (CC2 : forall k, cc s2 k = cc s1 k) by (intros; unfold cc; now rewrite K2).
    assert (HR2 : is_removed (i_u s2) j = false) by (unfold is_removed; rewrite B4; exact HR).
    rewrite feasible_value_here by (first [assumption|apply (bk_apart _ _ _ _ T2)]). cbn [pbind].
    destruct (feasible_value g (i_u s2) j) as [v|] eqn:FV; [|apply agree_stop].
    eapply agree_spec.
    + apply queue_variable_here. intros _. split; [assumption|]. split; [apply (bk_apart _ _ _ _ T2)|congruence].
    + eapply pspec_impl; [apply (queue_variable_books s2 j J T2); try assumption| |intros ? H; exact H|auto].
      * unfold J. rewrite Nat.eqb_refl, CV2, CV1, Nat.eqb_refl. cbn [andb]. destruct (Nat.eqb_spec (cv s j) 1), (Nat.eqb_spec (cv s j - 1) 0); try reflexivity; lia.
      * intros k D. unfold J. destruct (Nat.eqb_spec k j); [contradiction|reflexivity].
      * congruence.
      * cbn beta. intros s3 (T3 & E3 & Ub & Ua & Ut). split; [assumption|]. split.
        -- apply (opened_bounds g (i_u s2)); [intros; now apply bound_of_eq|]. intros k l' h' Hl Hh. destruct (Nat.eq_dec k j) as [->|D].
           ++ unfold feasible_value in FV. rewrite Hl, Hh in FV. destruct (qleb l' h') eqn:E; [|discriminate]. now qb.
           ++ rewrite OV in Hl, Hh by assumption. exact (OP k l' h' Hl Hh).
        -- intros k r Ck. unfold type_of. rewrite Ut, B2. apply RG. change (cc s3 k) with (nth k (c_con (i_c s3)) 0%nat) in Ck. rewrite E3 in Ck. fold (cc s2 k) in Ck. rewrite CC2, CC1 in Ck. lia.
Qed.
End Rules.
