(** * Presolving: slack variables and propagation do the same in a debug build and in a release build *)
From Verif Require Import SpecGeneral SparseP LinAlg KindP InitP.
From Verif Require Export PreAgreeRules PreSlack PreRow.
Local Open Scope Qc_scope.

Section Rules.
Variable on : site -> bool.
Variables (g : general) (rows : list svec).
Local Notation n := (nr_vars g).
Local Notation m := (g_rows g).
Local Notation row i := (nth i rows []).
Local Notation col j := (nth j (g_cols g) []).
Local Notation in_row := (in_row rows).
Local Notation in_col := (in_col g).
Hypothesis M : matrix_ok g rows.
Local Notation books := (books g rows).
Local Notation calm := (calm g rows).

(** ** A row goes *)
Lemma row_entries s i k : In k (map fst (active_row rows (i_c s) i)) -> cv s k <> 0%nat.
Proof using. intros H. rewrite active_row_fst in H. now apply alive_In in H. Qed.
Lemma ready_here J s k : books J s -> opened g (i_u s) -> cv s k <> 0%nat -> ready g (i_u s) k.
Proof using. intros T O C. split; [now apply (bk_here _ _ _ _ _ T)|]. split; [apply (bk_apart _ _ _ _ T)|now apply opened_value]. Qed.
Lemma drop_row_agree {A} s i (x : A) : calm s -> cc s i <> 0%nat ->
  agree (let+ s := remove_constraint_values_d on g rows s i in let+ s := mark_constraint_d on s i in Go (s, x))
    (let+ s := remove_constraint_values g rows s i in Go (mark_constraint s i, x)) (fun r => calm (fst r)) False.
Proof using M.
  intros CALM Ci. pose proof CALM as (T & OP & RG). pose proof (bk_cc _ _ _ _ _ T Ci) as Li.
  unfold remove_constraint_values_d, remove_constraint_values. rewrite (active_row_here on g rows M) by assumption. cbn [pbind].
  set (L := active_row rows (i_c s) i). pose proof (active_row_nd g rows M s i) as NDL. fold L in NDL.
  change (foldP _ L s) with (foldP (drop_entry_d on g nobody i) L s) at 1.
  change (foldP (fun s '(j, _) => let+ s := dec_con s i in let+ s := dec_var s j in queue_variable g s j) L s) with (foldP (drop_entry g nobody i) L s).
  rewrite (drop_entries_here on g nobody i L s NDL) by (intros k Hk; apply (ready_here nobody); try assumption; now apply (row_entries s i)).
  assert (LL : (length L <= cc s i)%nat) by (unfold L; rewrite <- (bk_row g rows _ _ _ T Ci); lia).
  pose proof (drop_entries_spec g nobody i L s NDL (row_entries s i) LL (fun k _ => opened_value g _ k OP)) as SP.
  destruct (foldP (drop_entry g nobody i) L s) as [s1|v| |]; cbn [pspec pbind] in *; [|now split|contradiction|contradiction].
  destruct SP as (A1 & A2 & A3 & A4 & A5 & A6 & A7 & A8 & A9 & A10 & sol & B1 & B2 & B3).
  assert (C0 : cc s1 i = 0%nat) by (rewrite A5, Nat.eqb_refl, (bk_row g rows _ _ _ T Ci); fold L; lia).
  rewrite assert_ok by (fold (cc s1 i); now rewrite C0). cbn [pbind]. rewrite mark_constraint_here by assumption. cbn [pbind]. apply agree_go. cbn [fst].
  set (s2 := mark_constraint s1 i).
  assert (CCi : cc s2 i = 0%nat) by exact C0.
  assert (CCs : forall k, k <> i -> cc s2 k = cc s k) by (intros k Hk; change (cc s1 k = cc s k); rewrite A5; destruct (Nat.eqb_spec k i); [contradiction|lia]).
  assert (CVs : forall k, cv s2 k = (cv s k - if memb k (map fst L) then 1 else 0)%nat) by exact A6.
  assert (Eu : i_u s2 = add_gone (add_solved g (i_u s) sol) [i]) by (unfold s2, mark_constraint; cbn; now rewrite B1).
  assert (SF : forall k, In k (map fst sol) <-> In k (map fst L) /\ cv s k = 1%nat).
  { intros k. rewrite B2, filter_In. unfold nobody. cbn. rewrite andb_true_r, Nat.eqb_eq. reflexivity. }
  assert (FS : map fst (u_removed (i_u s2)) = map fst (u_removed (i_u s)) ++ map fst sol).
  { rewrite Eu. cbn. rewrite map_app, map_map. f_equal. apply map_ext. intros [? ?]. reflexivity. }
  apply (calm_same g rows s); try (rewrite Eu; reflexivity); try assumption.
  2:{ intros k Hk. destruct (Nat.eq_dec k i) as [->|D]; [congruence|now rewrite CCs in Hk]. }
  apply (lost_books g rows M s s2 i nobody T Ci CVs CCi CCs nobody); try assumption; try (rewrite Eu; reflexivity).
  - intros x0 H. apply A10 in H. destruct H as [H|(H1 & H2 & H3)]; [now left|]. right. split; [|assumption]. rewrite CVs. apply memb_In in H1. rewrite H1. lia.
  - rewrite FS. apply NoDup_app_intro.
    + apply (bk_rem_nd _ _ _ _ T).
    + rewrite B2. now apply NoDup_filter.
    + intros k H1 H2. apply SF in H2. apply (bk_rem _ _ _ _ T) in H1. lia.
  - intros k. rewrite FS, in_app_iff, SF, (bk_rem _ _ _ _ T), CVs. destruct (memb k (map fst L)) eqn:E.
    + apply memb_In in E. pose proof (row_entries s i k E) as Hv. pose proof (bk_cv _ _ _ _ _ T Hv) as Hl.
      split; [intros [(_ & H' & _)|(_ & H')]; repeat split; (lia || assumption)|]. intros (_ & H' & _). right. split; [assumption|lia].
    + apply memb_false in E. rewrite Nat.sub_0_r. split; [intros [H|(H & _)]; [assumption|contradiction]|now left].
Qed.

(** ** Slack variables *)
Lemma slack_ranged t lower upper c t' bound : (forall r, t = Range r -> 0 <= r) -> (forall l h, lower = Some l -> upper = Some h -> l <= h) ->
  slack_case t lower upper c = Some (t', bound) -> forall r, t' = Range r -> 0 <= r.
Proof using.
  intros R O E r ->. unfold slack_case in *.
  destruct (qneg c) eqn:Q, t as [|r0| |], lower as [l|], upper as [h|]; try discriminate; injection E as <- <-; qb;
  specialize (O _ _ eq_refl eq_refl); try specialize (R _ eq_refl); qnra.
Qed.
Lemma slack_activity_ext s i l1 l2 c : (forall d, l1 d = l2 d) -> slack_activity s i l1 c = slack_activity s i l2 c.
Proof using. intros E. unfold slack_activity. apply foldP_ext. intros s' d _. now rewrite E. Qed.
Lemma slack_agree s j : on SlackFixed = false -> calm s -> cv s j = 1%nat -> v_cost (gvar g j) = 0 -> (forall i, cc s i <> 1%nat) ->
  agree (slack_rule_d on g rows s j) (slack_rule g rows s j) calm False.
Proof using M.
  intros HS CALM C1 Z NB. pose proof CALM as (T & OP & RG0). assert (Cj : cv s j <> 0%nat) by lia. pose proof (bk_cv _ _ _ _ _ T Cj) as Lj. unfold slack_rule, slack_rule_d.
  pose proof (bk_here _ _ _ _ _ T Cj) as HR. pose proof (bk_apart _ _ _ _ T) as AP.
  rewrite assert_ok by (fold (cv s j); now rewrite C1). rewrite (active_column_here on g rows M) by assumption. cbn [pbind].
  pose proof (bk_column g rows _ _ _ T Cj) as LC. rewrite C1 in LC.
  destruct (active_column g (i_c s) j) as [|[i c] [|? ?]] eqn:AC; try discriminate. clear LC. rewrite assert_run_ok by reflexivity.
  rewrite assert_ok by now apply qeqb_true. rewrite assert_off by assumption. cbn [hd_error unwrap pbind].
  assert (Hc : In (i, c) (col j) /\ cc s i <> 0%nat) by (apply (active_column_In g s j i c); rewrite AC; now left).
  destruct Hc as [Hc Ci]. pose proof (bk_cc _ _ _ _ _ T Ci) as Li. pose proof (proj2 (mo_in _ _ M i j c) Hc) as Hr.
  pose proof (bk_present _ _ _ _ _ T Ci) as HP. rewrite type_of_here, !bound_of_here by assumption. cbn [pbind].
  assert (RG : forall r, type_of g (i_u s) i = Range r -> 0 <= r) by (intros r; now apply RG0).
  assert (SVd : slack_value_d on g rows s i j c = Go (slack_value g rows s i j c)).
  { unfold slack_value_d. rewrite b_of_here by assumption. cbn [pbind]. rewrite (active_row_here on g rows M) by assumption. reflexivity. }
  assert (ONLY : forall i', cc s i' <> 0%nat -> i' <> i -> ~ In j (map fst (row i'))).
  { intros i' Hi' Ni' Hin. assert (2 <= cv s j)%nat; [|lia]. rewrite (bk_column g rows _ _ _ T Cj), <- (map_length fst), active_column_fst.
    apply (two_length _ i' i); [apply alive_NoDup, (in_col_nd g rows M)|assumption| |]; apply alive_In; (split; [|assumption]); apply (in_swap g rows M).
    - exact Hin.
    - now apply (in_map fst) in Hr. }
  set (on' := fun k => var_active (i_c s) k && negb (Nat.eqb k j)).
  assert (OJ : var_active (i_c s) j = true) by (rewrite var_active_cv; apply negb_true_iff; now apply Nat.eqb_neq).
  destruct (slack_case (type_of g (i_u s) i) (bound_of g (i_u s) j Lower) (bound_of g (i_u s) j Upper) c) as [[t' bound]|] eqn:SC.
  - (* the row stays *)
    assert (SOL : (match type_of g (i_u s) i with Equal | Range _ => slack_value_d on g rows s i j c | Greater | Less => Go (Solved bound) end) =
      Go (match type_of g (i_u s) i with Equal | Range _ => slack_value g rows s i j c | Greater | Less => Solved bound end)) by (destruct (type_of g (i_u s) i); try reflexivity; exact SVd).
    rewrite SOL. cbn [pbind].
    set (sol := match type_of g (i_u s) i with Equal | Range _ => slack_value g rows s i j c | Greater | Less => Solved bound end).
    rewrite (dec_var_ok s j) by assumption. cbn [pbind].
    match goal with |- context [mark_variable_d on ?x j sol] => set (s00 := x) end.
    rewrite mark_variable_here by (unfold s00, cv; cbn; rewrite nth_lowered; fold (cv s j); rewrite Nat.eqb_refl; lia). cbn [pbind].
    set (s1 := mark_variable _ j sol).
    assert (CV1 : forall k, cv s1 k = (cv s k - if Nat.eqb k j then 1 else 0)%nat) by (intros; apply nth_lowered).
    pose proof (bk_acts _ _ _ _ T) as [O1 O2 O3 O4 O5].
    set (lacks := fun d => match bound_of g (i_u s) j d with None => true | Some _ => false end).
    match goal with |- agree (pbind (slack_activity s1 i ?f c) _) _ _ _ => rewrite (slack_activity_ext s1 i f lacks c) by (intros [|]; unfold lacks; cbn; [destruct (bound_of g (i_u s) j Lower)|destruct (bound_of g (i_u s) j Upper)]; reflexivity) end.
    assert (MISS : forall e, missing g rows s i e = (length (filter (lacks_bound g (i_u s) e) (only on' (row i))) + if lacks (bmul e c) then 1 else 0)%nat).
    { intros e. unfold missing. 
      assert (PP : forall l, NoDup (map fst l) -> In (j, c) l ->
        length (filter (lacks_bound g (i_u s) e) (only (var_active (i_c s)) l)) = (length (filter (lacks_bound g (i_u s) e) (only on' l)) + if lacks (bmul e c) then 1 else 0)%nat).
      { induction l as [|[k a] l IH]; intros ND I'; [contradiction|]. cbn [map fst] in ND. apply NoDup_cons_iff in ND. destruct ND as [NI ND]. destruct I' as [E|I'].
        - injection E as -> ->. unfold only. cbn [filter]. fold (only (var_active (i_c s)) l) (only on' l).
          rewrite (only_without (var_active (i_c s)) on' l j) by (first [reflexivity|assumption]).
          rewrite OJ. unfold on'. rewrite Nat.eqb_refl, andb_false_r. cbn [filter].
          unfold lacks_bound at 1. cbn [fst snd]. fold on'. unfold lacks. destruct (bound_of g (i_u s) j (bmul e c)); cbn [length]; lia.
        - unfold only. cbn [filter]. fold (only (var_active (i_c s)) l) (only on' l). unfold on' at 1. destruct (Nat.eqb_spec k j) as [->|].
          + exfalso. apply NI. now apply (in_map fst) in I'.
          + rewrite andb_true_r. destruct (var_active (i_c s) k); cbn [filter]; [|now apply IH]. destruct (lacks_bound g (i_u s) e (k, a)); cbn [length]; rewrite (IH ND I'); lia. }
      apply PP; [apply (mo_nd_row _ _ M)|assumption]. }
    eapply agree_bind; [eapply agree_spec; [reflexivity|apply (slack_activity_spec g s1 i lacks c)]|].
    + exact O1.
    + exact Li.
    + intros d La. change (ca s i d <> 0%nat). rewrite O3 by assumption. rewrite MISS, La. lia.
    + cbn beta. intros s2 ([R1 R2 R3 R4 R5] & A1 & A2 & A3 & A4 & A5).
      assert (Cs2 : cc s2 i <> 0%nat) by (unfold cc; rewrite R3; exact Ci).
      rewrite (dec_con_ok s2 i) by assumption. cbn [pbind].
      set (s3 := with_c s2 _).
      assert (CC3 : forall k, cc s3 k = (cc s k - if Nat.eqb k i then 1 else 0)%nat) by (intros k; unfold s3, cc; cbn [with_c i_c c_con]; rewrite nth_lowered, R3; reflexivity).
      assert (CV3 : forall k, cv s3 k = (cv s k - if Nat.eqb k j then 1 else 0)%nat) by (intros k; unfold s3, cv; cbn [with_c i_c c_var]; rewrite R2; apply CV1).
      assert (C2 : (2 <= cc s i)%nat) by (specialize (NB i); lia).
      rewrite queue_constraint_here by (rewrite CC3, Nat.eqb_refl; intros X; lia).
      assert (QC : exists s4, queue_constraint g s3 i = Go s4 /\ i_u s4 = i_u s1 /\ i_c s4 = i_c s3 /\ i_act s4 = i_act s /\
         q_sub (i_q s4) = q_sub (i_q s) /\ q_slack (i_q s4) = q_slack (i_q s) /\ q_act (i_q s4) = q_act (i_q s2) /\
         (forall k, In k (q_bound (i_q s4)) <-> In k (q_bound (i_q s)) \/ (k = i /\ cc s i = 2%nat))).
      { unfold queue_constraint. fold (cc s3 i). rewrite CC3, Nat.eqb_refl. destruct (cc s i) as [|[|[|x]]] eqn:E; try lia; cbn [Nat.sub].
        - exists (push_bound s3 i). split; [reflexivity|]. cbn. rewrite R1, A1, A2, R4, R5. do 6 (split; [reflexivity|]). intros k. split; [intros [X|X]; auto|intros [X|[-> _]]; auto].
        - exists s3. split; [reflexivity|]. cbn. rewrite R1, A1, A2, R4, R5. do 6 (split; [reflexivity|]). intros k. split; [auto|intros [X|[_ X]]; [auto|lia]]. }
      destruct QC as (s4 & QC & U4 & C4 & AC4 & Q1 & Q2 & Q3 & Q4). rewrite QC. cbn [pbind]. rewrite U4. clear QC.
      rewrite change_b_here by exact HP. cbn [pbind]. apply agree_go.
      set (u5 := set_type (change_b g (i_u s1) i (- c * bound)) i t'). set (s5 := with_u s4 u5).
      assert (CV : forall k, cv s5 k = (cv s k - if Nat.eqb k j then 1 else 0)%nat) by (intros k; unfold s5, cv; cbn [with_u i_c]; rewrite C4; apply CV3).
      assert (CC : forall k, cc s5 k = (cc s k - if Nat.eqb k i then 1 else 0)%nat) by (intros k; unfold s5, cc; cbn [with_u i_c]; rewrite C4; apply CC3).
      assert (CVj : cv s5 j = 0%nat) by (rewrite CV, Nat.eqb_refl; lia).
      assert (CVk : forall k, k <> j -> cv s5 k = cv s k) by (intros k Hk; rewrite CV; destruct (Nat.eqb_spec k j); [contradiction|lia]).
      assert (CC0 : forall k, cc s5 k <> 0%nat <-> cc s k <> 0%nat) by (intros k; rewrite CC; destruct (Nat.eqb_spec k i) as [->|]; lia).
      assert (CA : forall k e, ca s5 k e = (ca s k e - if Nat.eqb i k && lacks (bmul e c) then 1 else 0)%nat).
      { intros k e. unfold s5, ca. cbn [with_u i_c]. rewrite C4. apply A4. }
      assert (BO : forall k d, bound_of g u5 k d = bound_of g (i_u s) k d) by reflexivity.
      assert (TYi : type_of g u5 i = t') by (unfold type_of, u5; cbn; unfold put; now rewrite Nat.eqb_refl).
      assert (TYk : forall k, k <> i -> type_of g u5 k = type_of g (i_u s) k) by (intros k Hk; unfold type_of, u5; cbn; unfold put; destruct (Nat.eqb_spec k i); [contradiction|reflexivity]).
      assert (V : forall k, var_active (i_c s5) k = on' k).
      { intros k. unfold on'. rewrite !var_active_cv. destruct (Nat.eqb_spec k j) as [->|Hk]; [rewrite CVj, andb_false_r; reflexivity|rewrite CVk by assumption; now rewrite andb_true_r]. }
      assert (ONL : forall k, only (var_active (i_c s5)) (row k) = only on' (row k)) by (intros k; apply only_ext; intros; apply V).
      split; [|split; [apply (opened_bounds g (i_u s)); assumption|]].
      2:{ intros k r Ck. change (i_u s5) with u5. destruct (Nat.eq_dec k i) as [->|Hk].
          - rewrite TYi. apply (slack_ranged _ _ _ _ _ _ RG (OP j) SC).
          - rewrite TYk by assumption. apply RG0. now apply CC0. }
      constructor.
      * unfold s5. cbn [with_u i_c]. rewrite C4. unfold s3. cbn [with_c i_c c_var]. rewrite R2. cbn. rewrite lowered_length. apply (bk_nv _ _ _ _ T).
      * unfold s5. cbn [with_u i_c]. rewrite C4. unfold s3. cbn [with_c i_c c_con]. rewrite lowered_length, R3. apply (bk_nc _ _ _ _ T).
      * apply (bip_delete in_col in_row (in_swap g rows M) (in_row_nd g rows M) (cv s) (cc s) (cv s5) (cc s5) j); try assumption.
        -- apply (bk_bip _ _ _ _ T).
        -- intros k. rewrite <- active_column_fst, AC, CC. cbn. now rewrite orb_false_r.
      * change (u_removed (i_u s5)) with (u_removed (i_u s) ++ [(j, sol)]). rewrite map_app. cbn [map fst]. apply NoDup_app_intro; [apply (bk_rem_nd _ _ _ _ T)|repeat constructor; auto|].
        intros k H H'. destruct H' as [E|[]]. rewrite <- E in H. apply (bk_rem _ _ _ _ T) in H. lia.
      * intros k. change (u_removed (i_u s5)) with (u_removed (i_u s) ++ [(j, sol)]). rewrite map_app, in_app_iff, (bk_rem _ _ _ _ T). cbn [map fst In]. destruct (Nat.eq_dec k j) as [->|Hk].
        -- rewrite CVj. unfold nobody. tauto.
        -- rewrite CVk by assumption. intuition congruence.
      * apply (bk_gone_nd _ _ _ _ T).
      * intros k. change (u_gone (i_u s5)) with (u_gone (i_u s)). rewrite (bk_gone _ _ _ _ T). pose proof (CC0 k). lia.
      * intros k H. change (In k (q_bound (i_q s4))). apply Q4. rewrite CC in H. destruct (Nat.eqb_spec k i) as [E|E]; [right; split; [exact E|rewrite E in H; lia]|]. left. apply (bk_bq _ _ _ _ T). lia.
      * intros k H. change (In k (q_bound (i_q s4))) in H. apply Q4 in H. rewrite CC. destruct H as [H|[-> H]].
        -- apply (bk_bq' _ _ _ _ T) in H. lia.
        -- rewrite Nat.eqb_refl. lia.
      * intros k H. change (In k (q_slack (i_q s4))) in H. rewrite Q2 in H. apply (bk_sq _ _ _ _ T) in H. destruct H as [H1 H2]. split; [rewrite CV; lia|assumption].
      * intros k H. change (In k (q_sub (i_q s4))) in H. rewrite Q1 in H. apply (bk_sub _ _ _ _ T) in H. exact H.
      * apply (bk_apart _ _ _ _ T).
      * constructor.
        -- unfold s5. cbn [with_u i_c]. rewrite C4. exact A3.
        -- change (i_act s5) with (i_act s4). now rewrite AC4.
        -- intros k e Ck. apply CC0 in Ck. rewrite CA, O3 by assumption. destruct (Nat.eqb_spec i k) as [<-|Hk]; cbn [andb].
           ++ rewrite MISS. unfold missing. change (active_row rows (i_c s5) i) with (only (var_active (i_c s5)) (row i)). rewrite ONL.
              change (lacks_bound g (i_u s5) e) with (lacks_bound g (i_u s) e). lia.
           ++ unfold missing. change (active_row rows (i_c s5) k) with (only (var_active (i_c s5)) (row k)). rewrite ONL.
              rewrite (only_without (var_active (i_c s)) on' (row k) j); [|reflexivity|].
              ** change (lacks_bound g (i_u s5) e) with (lacks_bound g (i_u s) e). rewrite Nat.sub_0_r. reflexivity.
              ** apply ONLY; [assumption|congruence].
        -- intros k e Ck K. apply CC0 in Ck. assert (K' : cache s k e <> None) by (unfold cache in *; change (i_act s5) with (i_act s4) in K; now rewrite AC4 in K).
           rewrite CA, (O4 k e Ck K'). reflexivity.
        -- intros k e H Ck. apply CC0 in Ck. change (In (k, e) (q_act (i_q s4))) in H. rewrite Q3 in H. apply A5 in H. destruct H as [H|H].
           ++ change (In (k, e) (q_act (i_q s))) in H. rewrite CA. specialize (O5 k e H Ck). lia.
           ++ assert (E : ca s5 k e = ca s2 k e) by (rewrite CA, A4; reflexivity). now rewrite E.
  - (* the row goes as well *)
    rewrite SVd. cbn [pbind]. set (sol := slack_value g rows s i j c). rewrite (active_row_here on g rows M) by assumption. cbn [pbind].
    set (L := active_row rows (i_c s) i). pose proof (active_row_nd g rows M s i) as NDL. fold L in NDL.
    change (foldP _ L s) with (foldP (drop_entry_d on g (fun k => Nat.eqb k j) i) L s) at 1.
    match goal with |- agree _ (pbind ?x _) _ _ => change x with (foldP (drop_entry g (fun k => Nat.eqb k j) i) L s) end.
    rewrite (drop_entries_here on g (fun k => Nat.eqb k j) i L s NDL) by (intros k Hk; apply (ready_here nobody); try assumption; now apply (row_entries s i)).
    assert (LV : forall k, In k (map fst L) -> cv s k <> 0%nat) by (intros k; apply row_entries).
    assert (JL : In j (map fst L)) by (unfold L; apply in_map_iff; exists (j, c); split; [reflexivity|]; now apply active_row_In).
    eapply agree_bind; [eapply agree_spec; [reflexivity|apply (drop_entries_spec g (fun k => Nat.eqb k j) i L s)]|].
    + assumption.
    + exact LV.
    + unfold L. rewrite <- (bk_row g rows _ _ _ T Ci). lia.
    + intros k Hk. now apply opened_value.
    + cbn beta. intros s1 (A1 & A2 & A3 & A4 & A5 & A6 & A7 & A8 & A9 & A10 & fr & B1 & B2 & B3).
      rewrite mark_variable_here by (rewrite A6; apply memb_In in JL; rewrite JL; lia). cbn [pbind].
      rewrite mark_constraint_here by (change (cc s1 i = 0%nat); rewrite A5, Nat.eqb_refl, (bk_row g rows _ _ _ T Ci); fold L; lia). apply agree_go.
      set (s2 := mark_constraint (mark_variable s1 j sol) i).
      assert (CCi : cc s2 i = 0%nat) by (change (cc s1 i = 0%nat); rewrite A5, Nat.eqb_refl, (bk_row g rows _ _ _ T Ci); fold L; lia).
      assert (CCs : forall k, k <> i -> cc s2 k = cc s k) by (intros k Hk; change (cc s1 k = cc s k); rewrite A5; destruct (Nat.eqb_spec k i); [contradiction|lia]).
      assert (CVs : forall k, cv s2 k = (cv s k - if memb k (map fst L) then 1 else 0)%nat) by exact A6.
      assert (SF : forall k, In k (map fst fr) <-> In k (map fst L) /\ cv s k = 1%nat /\ k <> j).
      { intros k. rewrite B2, filter_In, andb_true_iff, negb_true_iff, Nat.eqb_eq, Nat.eqb_neq. reflexivity. }
      assert (RM : u_removed (i_u s2) = (u_removed (i_u s) ++ map (fun '(k, v) => (k, Solved v)) fr) ++ [(j, sol)]) by (cbn; rewrite B1; reflexivity).
      assert (FS : map fst (u_removed (i_u s2)) = (map fst (u_removed (i_u s)) ++ map fst fr) ++ [j]).
      { rewrite RM. rewrite !map_app, map_map. f_equal. f_equal. apply map_ext. intros [? ?]. reflexivity. }
      apply (calm_same g rows s); try (cbn; rewrite B1; reflexivity); try assumption.
      2:{ intros k Hk. destruct (Nat.eq_dec k i) as [->|D]; [congruence|now rewrite CCs in Hk]. }
      apply (lost_books g rows M s s2 i nobody T Ci CVs CCi CCs nobody); try assumption; try (cbn; rewrite B1; reflexivity).
      * intros x H. apply A10 in H. destruct H as [H|(H1 & H2 & H3)]; [now left|]. right. split; [|assumption]. rewrite CVs. apply memb_In in H1. rewrite H1. lia.
      * rewrite FS. apply NoDup_app_intro; [apply NoDup_app_intro| |].
        -- apply (bk_rem_nd _ _ _ _ T).
        -- rewrite B2. now apply NoDup_filter.
        -- intros x H1 H2. apply SF in H2. apply (bk_rem _ _ _ _ T) in H1. lia.
        -- repeat constructor. auto.
        -- intros x H [<-|[]]. apply in_app_or in H. destruct H as [H|H]; [apply (bk_rem _ _ _ _ T) in H; lia|apply SF in H; tauto].
      * intros k. rewrite FS, !in_app_iff, SF, (bk_rem _ _ _ _ T), CVs. cbn [In]. destruct (memb k (map fst L)) eqn:E.
        -- apply memb_In in E. pose proof (LV k E) as Hv. pose proof (bk_cv _ _ _ _ _ T Hv) as Hl.
           split; [intros [[(_ & H' & _)|(_ & H' & _)]|[<-|[]]]; repeat split; (lia || assumption)|]. intros (_ & H' & _).
           destruct (Nat.eq_dec k j) as [->|Dk]; [right; now left|left; right; repeat split; [assumption|lia|assumption]].
        -- apply memb_false in E. rewrite Nat.sub_0_r. split; [intros [[H|(H & _)]|[<-|[]]]; [assumption|contradiction|contradiction]|intros H; now repeat left].
Qed.
End Rules.
