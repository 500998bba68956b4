(** * Presolving: removing a row, and the variables that then have no constraints *)
From Verif Require Import SpecGeneral SparseP LinAlg KindP InitP.
From Verif Require Export PreTidy.
Local Open Scope Qc_scope.

Section Drop.
Variables (g : general) (rows : list svec).
Local Notation n := (nr_vars g).
Local Notation m := (g_rows g).
Local Notation row i := (nth i rows []).
Local Notation col j := (nth j (g_cols g) []).
Local Notation feas := (feas g rows).
Local Notation vcost := (vcost g).
Local Notation implied := (implied g rows).
Local Notation tidy := (tidy g rows).
Local Notation in_row := (in_row rows).
Local Notation in_col := (in_col g).
Hypothesis M : matrix_ok g rows.

(** *** The loop *)
Definition drop_entry (P : nat -> bool) (i : nat) (s : pindex) (e : nat * Qc) : pr pindex :=
  let (k, _) := e in let+ s := dec_con s i in let+ s := dec_var s k in if P k then Go s else queue_variable g s k.
Lemma eliminated_solved u l k v : eliminated g (add_solved g u l) k v <-> eliminated g u k v.
Proof. reflexivity. Qed.
Lemma drop_entries_spec P i : forall l s, NoDup (map fst l) -> (forall k, In k (map fst l) -> cv s k <> 0%nat) -> (length l <= cc s i)%nat ->
  (forall k, In k (map fst l) -> feasible_value g (i_u s) k <> None) ->
  pspec (foldP (drop_entry P i) l s) (fun s' =>
      i_act s' = i_act s /\ c_act (i_c s') = c_act (i_c s) /\
      length (c_var (i_c s')) = length (c_var (i_c s)) /\ length (c_con (i_c s')) = length (c_con (i_c s)) /\
      (forall k, cc s' k = (cc s k - if Nat.eqb k i then length l else 0)%nat) /\
      (forall k, cv s' k = (cv s k - if memb k (map fst l) then 1 else 0)%nat) /\
      q_sub (i_q s') = q_sub (i_q s) /\ q_bound (i_q s') = q_bound (i_q s) /\ q_act (i_q s') = q_act (i_q s) /\
      (forall x, In x (q_slack (i_q s')) -> In x (q_slack (i_q s)) \/ (In x (map fst l) /\ cv s x = 2%nat /\ v_cost (gvar g x) = 0)) /\
      exists sol, i_u s' = add_solved g (i_u s) sol /\ map fst sol = filter (fun k => Nat.eqb (cv s k) 1 && negb (P k)) (map fst l) /\
        forall k v, In (k, v) sol -> eliminated g (i_u s) k v)
    (fun v => v = VUnbounded /\ exists k, In k (map fst l) /\ cv s k = 1%nat /\ v_cost (gvar g k) <> 0 /\
       optimize_column g (v_cost (gvar g k)) (bound_of g (i_u s) k Lower) (bound_of g (i_u s) k Upper) = Stop VUnbounded) False.
Proof.
  induction l as [|[k c] l IH]; intros s ND HC HV HD; cbn [foldP map fst].
  - cbn. repeat (split; [first [reflexivity|intros x; destruct (Nat.eqb x i); lia|intros; lia|intros; now left]|]). 
    exists []. rewrite add_solved_nil. repeat split. intros ? ? [].
  - cbn [map fst] in ND, HC, HD. apply NoDup_cons_iff in ND. destruct ND as [NI ND]. cbn [length] in HV.
    assert (Ck : cv s k <> 0%nat) by (apply HC; now left).
    set (c1 := mk_pcounters (lowered (c_var (i_c s)) k) (lowered (c_con (i_c s)) i) (c_act (i_c s))).
    assert (E : drop_entry P i s (k, c) = if P k then Go (with_c s c1) else queue_variable g (with_c s c1) k).
    { cbn [drop_entry]. rewrite dec_con_ok by lia. cbn [pbind]. rewrite dec_var_ok by exact Ck. reflexivity. }
    assert (C1 : forall x, nth x (c_con c1) 0%nat = (cc s x - if Nat.eqb x i then 1 else 0)%nat) by (intros; apply nth_lowered).
    assert (V1 : forall x, nth x (c_var c1) 0%nat = (cv s x - if Nat.eqb x k then 1 else 0)%nat) by (intros; apply nth_lowered).
    (* what one entry does *)
    assert (ONE : pspec (drop_entry P i s (k, c)) (fun s1 => i_c s1 = c1 /\ i_act s1 = i_act s /\ q_sub (i_q s1) = q_sub (i_q s) /\ q_bound (i_q s1) = q_bound (i_q s) /\ q_act (i_q s1) = q_act (i_q s) /\
        (forall x, In x (q_slack (i_q s1)) -> In x (q_slack (i_q s)) \/ (x = k /\ cv s x = 2%nat /\ v_cost (gvar g x) = 0)) /\
        exists sol, i_u s1 = add_solved g (i_u s) sol /\ map fst sol = (if Nat.eqb (cv s k) 1 && negb (P k) then [k] else []) /\ forall k v, In (k, v) sol -> eliminated g (i_u s) k v)
       (fun v => v = VUnbounded /\ cv s k = 1%nat /\ v_cost (gvar g k) <> 0 /\
         optimize_column g (v_cost (gvar g k)) (bound_of g (i_u s) k Lower) (bound_of g (i_u s) k Upper) = Stop VUnbounded) False).
    { rewrite E. destruct (P k).
      - cbn. repeat split; auto. exists []. rewrite add_solved_nil, andb_false_r. repeat split. intros ? ? [].
      - unfold queue_variable. cbn [with_c i_c]. rewrite V1, Nat.eqb_refl. cbn [with_c i_u].
        destruct (cv s k) as [|[|[|x]]] eqn:Ek; [congruence| | |].
        + cbn [Nat.sub]. destruct (qzero (v_cost (gvar g k))) eqn:Z; qb.
          * destruct (feasible_value g (i_u s) k) as [v|] eqn:Fv; [|exfalso; apply (HD k); [now left|assumption]].
            cbn. repeat split; auto. exists [(k, v)]. split; [|split; [reflexivity|]].
            -- unfold add_solved. cbn. rewrite Z. f_equal. ring.
            -- intros k' v' [EE|[]]. injection EE as <- <-. left. now split.
          * destruct (optimize_column g (v_cost (gvar g k)) (bound_of g (i_u s) k Lower) (bound_of g (i_u s) k Upper)) as [v|v| |] eqn:OC.
            -- cbn. repeat split; auto. exists [(k, v)]. split; [reflexivity|split; [reflexivity|]]. intros k' v' [EE|[]]. injection EE as <- <-. right. now split.
            -- cbn. destruct (optimize_column_stop _ _ _ _ _ OC) as [-> _]. repeat split; auto.
            -- exfalso. unfold optimize_column in OC. destruct (qzero (v_cost (gvar g k))) eqn:Z'; qb; [contradiction|].
               destruct (match g_objective g with Minimize => _ | Maximize => _ end); discriminate.
            -- exfalso. unfold optimize_column in OC. destruct (qzero (v_cost (gvar g k))) eqn:Z'; [discriminate|].
               destruct (match g_objective g with Minimize => _ | Maximize => _ end); discriminate.
        + cbn [Nat.sub]. destruct (qzero (v_cost (gvar g k))) eqn:Z; qb; cbn; repeat split; auto.
          * intros x [<-|H]; [right; repeat split; assumption|now left].
          * exists []. rewrite add_solved_nil. repeat split. intros ? ? [].
          * exists []. rewrite add_solved_nil. repeat split. intros ? ? [].
        + cbn. repeat split; auto. exists []. rewrite add_solved_nil. repeat split. intros ? ? []. }
    eapply pspec_bind.
    + eapply pspec_impl; [exact ONE|intros a H; exact H| |auto]. cbn beta. intros v (-> & H1 & H2 & H3). split; [reflexivity|]. exists k. repeat split; auto. now left.
    + cbn beta. intros s1 (Ec & Ea & Q1 & Q2 & Q3 & Q4 & sol1 & Eu & Em & Ee).
      assert (S1 : forall x, cc s1 x = (cc s x - if Nat.eqb x i then 1 else 0)%nat) by (intros; unfold cc at 1; rewrite Ec; apply C1).
      assert (S2 : forall x, cv s1 x = (cv s x - if Nat.eqb x k then 1 else 0)%nat) by (intros; unfold cv at 1; rewrite Ec; apply V1).
      assert (NE : forall x, In x (map fst l) -> x <> k) by (intros x Hx ->; contradiction).
      assert (S3 : forall x, In x (map fst l) -> cv s1 x = cv s x).
      { intros x Hx. rewrite S2. destruct (Nat.eqb_spec x k); [now apply NE in Hx|lia]. }
      eapply pspec_impl; [apply IH; [assumption| | |]| | |auto].
      * intros x Hx. rewrite S3 by assumption. apply HC. now right.
      * rewrite S1, Nat.eqb_refl. lia.
      * intros x Hx. rewrite Eu. change (feasible_value g (i_u s) x <> None). apply HD. now right.
      * cbn beta. intros s' (A1 & A2 & A3 & A4 & A5 & A6 & A7 & A8 & A9 & A10 & sol2 & B1 & B2 & B3).
        repeat split; try congruence.
        -- rewrite A2, Ec. reflexivity.
        -- rewrite A3, Ec. cbn. apply lowered_length.
        -- rewrite A4, Ec. cbn. apply lowered_length.
        -- intros x. rewrite A5, S1. destruct (Nat.eqb x i); cbn [length]; lia.
        -- intros x. rewrite A6, S2. cbn [memb existsb]. fold (memb x (map fst l)). destruct (Nat.eqb_spec x k) as [->|]; cbn [orb]; [|lia].
           apply memb_false in NI. rewrite NI. lia.
        -- intros x H. apply A10 in H. destruct H as [H|(H1 & H2 & H3)].
           ++ apply Q4 in H. destruct H as [H|(-> & H2 & H3)]; [now left|]. right. split; [now left|]. now split.
           ++ right. rewrite S3 in H2 by assumption. split; [now right|]. now split.
        -- exists (sol1 ++ sol2). split; [|split].
           ++ rewrite B1, Eu. apply add_solved_app.
           ++ rewrite map_app, Em, B2. cbn [filter]. 
              rewrite (filter_ext_in (fun x => Nat.eqb (cv s1 x) 1 && negb (P x)) (fun x => Nat.eqb (cv s x) 1 && negb (P x))) by (intros x Hx; now rewrite S3).
              destruct (Nat.eqb (cv s k) 1 && negb (P k)); reflexivity.
           ++ intros x v I. apply in_app_or in I. destruct I as [I|I]; [now apply Ee|]. apply B3 in I. rewrite Eu in I. exact I.
      * cbn beta. intros v (-> & x & Hx & H1 & H2 & H3). split; [reflexivity|]. exists x. rewrite S3 in H1 by assumption. rewrite Eu in H3. split; [now right|]. now repeat split.
Qed.

(** *** Variables without constraints *)
Lemma eliminated_best u k v : eliminated g u k v -> forall x, within g u k x -> better (g_objective g) (v_cost (gvar g k) * v) (v_cost (gvar g k) * x).
Proof.
  intros [[Z _]|[N E]] x W.
  - rewrite Z. replace (0 * v) with (0 * x) by ring. apply better_refl.
  - apply (optimize_column_go _ _ _ _ _ E); apply W.
Qed.
Lemma eliminated_within u k v : eliminated g u k v -> feasible_value g u k <> None -> within g u k v.
Proof.
  intros [[_ E]|[N E]] D; [now apply feasible_value_some|].
  destruct (feasible_value g u k) as [x|] eqn:Fv; [|congruence]. apply feasible_value_some in Fv.
  destruct (proj2 (optimize_column_go _ _ _ _ _ E)) as [H1 H2]; [exists x; split; apply Fv|]. intros [|]; assumption.
Qed.
Section Free.
Context {Cl : (nat -> bool) -> Prop}.
Local Notation step := (cstep g rows Cl).
Lemma step_free_list : forall sol w w', NoDup (map fst sol) -> tight g (upds w) -> implied w ->
  (forall k, on_var w' k = on_var w k && negb (memb k (map fst sol))) -> (forall i, on_row w' i = on_row w i) ->
  upds w' = add_solved g (upds w) sol ->
  (forall k v, In (k, v) sol -> (k < n)%nat /\ on_var w k = true /\ (forall i, on_row w i = true -> ~ In k (map fst (row i))) /\
     eliminated g (upds w) k v /\ feasible_value g (upds w) k <> None) -> step w w'.
Proof.
  induction sol as [|[k v] sol IH]; intros w w' ND TI I V R U H.
  - rewrite add_solved_nil in U. apply cstep_same; rewrite ?U; auto.
    + intros j. rewrite V. cbn. apply andb_true_r.
    + intros x. unfold PreView.feas. rewrite U. cbn [map memb existsb] in V.
      split; intros [F1 F2]; (split; [intros j; rewrite ?V; rewrite ?V in F1; rewrite ?andb_true_r; intros Hj; apply F1; now rewrite ?V, ?andb_true_r|]);
        intros i; rewrite ?R; intros Hi; specialize (F2 i); rewrite ?R in F2; specialize (F2 Hi);
        (erewrite only_ext; [exact F2|intros j c _; rewrite V; now rewrite andb_true_r]).
    + intros D _ x. unfold PreView.feas, cut. cbn [on_var on_row upds]. rewrite U. cbn [map memb existsb] in V.
      intros [F1 F2]. split; [intros j Hj; apply F1; now rewrite V, andb_true_r|].
      intros i Hi. rewrite <- R in Hi. specialize (F2 i Hi). erewrite only_ext; [exact F2|]. intros j c _. rewrite V. symmetry. apply andb_true_r.
  - cbn [map fst] in ND. apply NoDup_cons_iff in ND. destruct ND as [NI ND].
    set (w1 := mk_view (fun j => on_var w j && negb (Nat.eqb j k)) (on_row w) (add_solved g (upds w) [(k, v)])).
    destruct (H k v (or_introl eq_refl)) as (Lk & Ok & Nk & Ek & Dk).
    assert (S1 : step w w1).
    { apply (cstep_free g rows w w1 k v); try assumption; try reflexivity.
      - intros x F. apply (eliminated_best _ _ _ Ek). apply I; assumption.
      - apply within_pwithin; [assumption|]. now apply eliminated_within. }
    apply (cstep_trans g rows w w1 w' S1). apply IH; try assumption.
    + apply (implied_csame g rows w w1 S1 I). reflexivity.
    + intros j. rewrite V. cbn. rewrite negb_orb, andb_assoc. reflexivity.
    + rewrite U. unfold w1. cbn [upds]. now rewrite add_solved_app.
    + intros j x Hj. destruct (H j x (or_intror Hj)) as (Lj & Oj & Nj & Ej & Dj). repeat split; try assumption.
      cbn. rewrite Oj. destruct (Nat.eqb_spec j k) as [->|]; [|reflexivity]. exfalso. apply NI. now apply (in_map fst) in Hj.
Qed.
End Free.

(** *** The bookkeeping when a row goes *)
Section RowGone.
Variables (s s' : pindex) (i : nat) (J : nat -> bool).
Hypotheses (T : tidy J s) (Ci : cc s i <> 0%nat)
  (CVs : forall k, cv s' k = (cv s k - if memb k (map fst (active_row rows (i_c s) i)) then 1 else 0)%nat)
  (CCi : cc s' i = 0%nat) (CCs : forall k, k <> i -> cc s' k = cc s k).
Lemma gone_bip : bip in_col in_row (cv s') (cc s').
Proof using M T Ci CVs CCi CCs.
  assert (SW : forall a b c d, bip a b c d -> bip b a d c) by (intros a b c d [H1 H2]; now split).
  apply SW. apply (bip_delete in_row in_col (fun j i => iff_sym (in_swap g rows M i j)) (in_col_nd g rows M) (cc s) (cv s) (cc s') (cv s') i); try assumption.
  - apply SW. apply (td_bip _ _ _ _ T).
  - intros k. rewrite CVs. now rewrite active_row_fst.
Qed.
(** a variable of another row that is still there is still there *)
Lemma gone_other i' k c : i' <> i -> cc s i' <> 0%nat -> In (k, c) (row i') -> (cv s' k <> 0%nat <-> cv s k <> 0%nat).
Proof using M T Ci CVs CCi CCs.
  intros N C I. rewrite CVs. destruct (memb k (map fst (active_row rows (i_c s) i))) eqn:E; [|lia].
  apply memb_In in E. split; [lia|]. intros V.
  assert (2 <= cv s k)%nat; [|lia]. rewrite (td_column g rows _ _ _ T V), <- (map_length fst), active_column_fst.
  apply (two_length _ i' i); [apply alive_NoDup, (in_col_nd g rows M)|assumption| |]; apply alive_In; (split; [|assumption]).
  - apply (in_swap g rows M). unfold PreTidy.in_row. now apply (in_map fst) in I.
  - apply (in_swap g rows M). rewrite active_row_fst in E. now apply alive_In in E.
Qed.
Lemma gone_row i' : i' <> i -> cc s i' <> 0%nat -> active_row rows (i_c s') i' = active_row rows (i_c s) i'.
Proof using M T Ci CVs CCi CCs.
  intros N C. unfold active_row. apply filter_ext_in. intros [k c] I. rewrite !var_active_cv. f_equal.
  pose proof (gone_other i' k c N C I) as H. destruct (Nat.eqb_spec (cv s' k) 0), (Nat.eqb_spec (cv s k) 0); try reflexivity; tauto.
Qed.
Lemma gone_tidy (J' : nat -> bool) :
  i_act s' = i_act s -> c_act (i_c s') = c_act (i_c s) ->
  length (c_var (i_c s')) = length (c_var (i_c s)) -> length (c_con (i_c s')) = length (c_con (i_c s)) ->
  q_sub (i_q s') = q_sub (i_q s) -> q_bound (i_q s') = q_bound (i_q s) -> q_act (i_q s') = q_act (i_q s) ->
  (forall x, In x (q_slack (i_q s')) -> In x (q_slack (i_q s)) \/ (cv s' x <= 1)%nat /\ v_cost (gvar g x) = 0) ->
  u_bounds (i_u s') = u_bounds (i_u s) -> u_acts (i_u s') = u_acts (i_u s) -> u_types (i_u s') = u_types (i_u s) ->
  u_gone (i_u s') = u_gone (i_u s) ++ [i] ->
  NoDup (map fst (u_removed (i_u s'))) ->
  (forall j, In j (map fst (u_removed (i_u s'))) <-> (j < n)%nat /\ cv s' j = 0%nat /\ J' j = false) ->
  tidy J' s'.
Proof using M T Ci CVs CCi CCs.
  intros A1 A2 A3 A4 Q1 Q2 Q3 Q4 Ub Ua Ut GN RN RM.
  assert (PB : forall k d, pbound g (i_u s') k d = pbound g (i_u s) k d) by (intros; unfold pbound; now rewrite Ub).
  assert (BO : forall k d, bound_of g (i_u s') k d = bound_of g (i_u s) k d) by (intros; rewrite !bound_of_cases, Ua, PB; reflexivity).
  assert (CC : forall k, cc s' k <> 0%nat -> k <> i /\ cc s k <> 0%nat).
  { intros k H. destruct (Nat.eq_dec k i) as [->|D]; [congruence|]. rewrite CCs in H by assumption. now split. }
  constructor; try assumption.
  - rewrite A3. apply (td_nv _ _ _ _ T).
  - rewrite A4. apply (td_nc _ _ _ _ T).
  - exact gone_bip.
  - rewrite GN. apply NoDup_app_intro; [apply (td_gone_nd _ _ _ _ T)|repeat constructor; auto|]. intros x H [<-|[]]. apply (td_gone _ _ _ _ T) in H. destruct H; contradiction.
  - intros k. rewrite GN, in_app_iff, (td_gone _ _ _ _ T). cbn. destruct (Nat.eq_dec k i) as [->|D].
    + rewrite CCi. pose proof (cc_lt _ _ _ _ _ T Ci). tauto.
    + rewrite CCs by assumption. intuition congruence.
  - intros k H. rewrite Q2. apply (td_bq _ _ _ _ T). destruct (CC k ltac:(lia)) as [D _]. now rewrite CCs in H.
  - intros k H. rewrite Q2 in H. apply (td_bq' _ _ _ _ T) in H. destruct (Nat.eq_dec k i) as [->|D]; [lia|]. now rewrite CCs.
  - intros k H. apply Q4 in H. destruct H as [H|H]; [|exact H]. apply (td_sq _ _ _ _ T) in H. destruct H as [H1 H2]. split; [rewrite CVs; lia|assumption].
  - intros k H. rewrite Q1 in H. apply (td_sub _ _ _ _ T) in H. destruct H as (l' & h' & H1 & H2 & H3). exists l', h'. now rewrite !BO.
  - unfold apart. rewrite Ub, Ua. apply (td_apart _ _ _ _ T).
  - intros k d a w. rewrite BO, PB. apply (td_tight _ _ _ _ T).
  - intros k r H. unfold type_of. rewrite Ut. apply (td_range _ _ _ _ T). now apply CC.
  - pose proof (td_acts _ _ _ _ T) as [O1 O2 O3 O4 O5].
    assert (CA : forall k e, ca s' k e = ca s k e) by (intros k e; unfold ca; now rewrite A2).
    constructor.
    + now rewrite A2.
    + now rewrite A1.
    + intros k e H. destruct (CC k H) as [D H']. rewrite CA, O3 by assumption. unfold missing. rewrite gone_row by assumption.
      f_equal. apply filter_ext. intros [x c]. unfold lacks_bound. now rewrite BO.
    + intros k e H K. rewrite CA. apply O4; [now apply CC|]. unfold cache in *. now rewrite A1 in K.
    + intros k e I H. rewrite CA. apply O5; [now rewrite <- Q3|now apply CC].
Qed.
End RowGone.
End Drop.
