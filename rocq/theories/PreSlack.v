(** * Presolving: slack variables *)
From Verif Require Import SpecGeneral SparseP LinAlg KindP InitP.
From Verif Require Export PreBoundRule.
Local Open Scope Qc_scope.

Section Slack.
Variables (g : general) (rows : list svec).
Local Notation n := (nr_vars g).
Local Notation m := (g_rows g).
Local Notation row i := (nth i rows []).
Local Notation col j := (nth j (g_cols g) []).
Context {Cl : (nat -> bool) -> Prop} {Kn : nat -> bool}.
Local Notation step := (cstep g rows Cl).
Local Notation feas := (feas g rows).
Local Notation vcost := (vcost g).
Local Notation implied := (implied g rows).
Local Notation tidy := (tidy g rows).
Local Notation in_row := (in_row rows).
Local Notation in_col := (in_col g).
Local Notation verdict_holds := (verdict_holds g rows).
Hypothesis M : matrix_ok g rows.
Hypothesis from_id : forall k, (k < n)%nat -> nth k (g_from g) 0%nat = k.

(** ** The order in which removed variables are recorded does not matter *)
Lemma step_reorder w w' : (forall j, on_var w' j = on_var w j) -> (forall x, feas w x <-> feas w' x) ->
  u_fixed (upds w') = u_fixed (upds w) -> (forall e, In e (u_removed (upds w')) <-> In e (u_removed (upds w))) ->
  (forall D, Cl D -> forall x, feas (cut D w') x -> feas (cut D w) x) -> step w w'.
Proof.
  intros V F C R FC. split; [|intros D CD x X; exists x; split; [now apply FC|reflexivity]]. constructor.
  - intros j. now rewrite V.
  - intros x H. split; [now apply F|]. rewrite (vcost_same g w w') by assumption. apply better_refl.
  - intros x Mx. split; [|now apply vcost_same]. intros j r H. apply Mx. now apply R.
  - intros x H _. now apply F.
  - intros x H. exists x. split; [now apply F|]. split; [symmetry; now apply vcost_same|reflexivity].
Qed.

(** ** The counters of missing bounds *)
Lemma slack_activity_spec s i lacks c : length (c_act (i_c s)) = m -> (i < m)%nat -> (forall d, lacks (bmul d c) = true -> ca s i d <> 0%nat) ->
  pspec (slack_activity s i lacks c) (fun s' => same_rest s s' /\ i_act s' = i_act s /\ q_sub (i_q s') = q_sub (i_q s) /\
     length (c_act (i_c s')) = m /\
     (forall k e, ca s' k e = (ca s k e - if Nat.eqb i k && lacks (bmul e c) then 1 else 0)%nat) /\
     (forall k e, In (k, e) (q_act (i_q s')) -> In (k, e) (q_act (i_q s)) \/ (ca s' k e <= 1)%nat)) (fun _ => False) False.
Proof.
  intros L Li H.
  assert (ONE : forall d s, length (c_act (i_c s)) = m -> (lacks (bmul d c) = true -> ca s i d <> 0%nat) ->
    pspec (if lacks (bmul d c) then let+ s := dec_act s i d in Go (if Nat.leb (side d (nth i (c_act (i_c s)) (0, 0)%nat)) 1 then push_act s (i, d) else s) else Go s)
      (fun s' => same_rest s s' /\ i_act s' = i_act s /\ q_sub (i_q s') = q_sub (i_q s) /\
     length (c_act (i_c s')) = m /\
     (forall k e, ca s' k e = (ca s k e - if Nat.eqb i k && bdir_eqb e d && lacks (bmul d c) then 1 else 0)%nat) /\
     (forall k e, In (k, e) (q_act (i_q s')) -> In (k, e) (q_act (i_q s)) \/ (ca s' k e <= 1)%nat)) (fun _ => False) False).
  { clear s L H. intros d s L H. destruct (lacks (bmul d c)) eqn:La.
    - pose proof (lower_counters_spec g (bmul d c) [(i, c)] s L) as X. cbn [foldP] in X.
      assert (HIT : forall k e, hit [(i, c)] (bmul d c) k e = if Nat.eqb i k && bdir_eqb e d then 1%nat else 0%nat).
      { intros k e. unfold hit. cbn [filter]. rewrite bmul_bmul. destruct (Nat.eqb i k && bdir_eqb e d); reflexivity. }
      assert (X1 : forall i0 c0, In (i0, c0) [(i, c)] -> (i0 < m)%nat) by (intros ? ? [E|[]]; injection E as <- <-; assumption).
      assert (X2 : forall k e, (hit [(i, c)] (bmul d c) k e <= ca s k e)%nat).
      { intros k e. rewrite HIT. destruct (Nat.eqb_spec i k) as [<-|]; cbn [andb]; [|lia]. destruct (bdir_eqb_spec e d) as [->|]; [|lia]. specialize (H eq_refl). lia. }
      specialize (X X1 X2). unfold lower_counter in X. rewrite bmul_bmul in X.
      assert (E : forall (r : pr pindex), pbind r (fun s' => Go s') = r) by (intros [?|?| |]; reflexivity). rewrite E in X.
      eapply pspec_impl; [exact X| |auto|auto]. cbn beta. intros s' (R & A1 & A2 & A3 & A4 & A5). split; [assumption|]. repeat split; try assumption.
      intros k e. rewrite A4, HIT. now rewrite andb_true_r.
    - cbn [pspec]. split; [apply same_rest_refl|]. repeat split; auto. intros k e. rewrite andb_false_r. lia. }
  unfold slack_activity. cbn [foldP].
  eapply pspec_bind; [eapply pspec_impl; [apply (ONE Lower s L); apply H|intros a X; exact X|intros ? []|auto]|].
  cbn beta. intros s1 (R1 & A1 & A2 & A3 & A4 & A5).
  eapply pspec_bind; [eapply pspec_impl; [apply (ONE Upper s1 A3)|intros a X; exact X|intros ? []|auto]|].
  - intros X. rewrite A4. replace (bdir_eqb Upper Lower) with false by reflexivity. rewrite andb_false_r. cbn [andb]. rewrite Nat.sub_0_r. now apply H.
  - cbn beta. intros s2 (R2 & B1 & B2 & B3 & B4 & B5). cbn [pspec]. split; [exact (same_rest_trans _ _ _ R1 R2)|].
    repeat split; try congruence.
    + intros k e. rewrite B4, A4. destruct (Nat.eqb i k); cbn [andb]; [|lia]. destruct e; cbn [bdir_eqb andb]; lia.
    + intros k e X. apply B5 in X. destruct X as [X|X]; [|now right]. apply A5 in X. destruct X as [X|X]; [now left|]. right. rewrite B4. lia.
Qed.

(** ** Values *)
Lemma combination_div l c x : c <> 0 -> combination (map (fun '(k, a) => (k, a / c)) l) x = combination l x / c.
Proof. intros N. induction l as [|[k a] l IH]; cbn [map combination]; [field; assumption|]. rewrite IH. field. assumption. Qed.
Lemma others_only (on : nat -> bool) i j : 
  filter (fun '(k, _) => negb (Nat.eqb k j)) (only on (row i)) = only (fun k => on k && negb (Nat.eqb k j)) (row i).
Proof. unfold only. rewrite filter_filter. apply filter_ext. intros [k c]. first [reflexivity|apply andb_comm]. Qed.
Lemma slack_value_of s i j c x : c <> 0 ->
  value_of (slack_value g rows s i j c) x = (b_of g (i_u s) i - combination (only (fun k => var_active (i_c s) k && negb (Nat.eqb k j)) (row i)) x) / c.
Proof.
  intros N. unfold slack_value, value_of. rewrite <- others_only. change (only (var_active (i_c s)) (row i)) with (active_row rows (i_c s) i).
  set (l := filter _ _). assert (E : map (fun '(k, a) => (nth k (g_from g) 0%nat, a / c)) l = map (fun '(k, a) => (k, a / c)) l).
  { apply map_ext_in. intros [k a] H. rewrite from_id; [reflexivity|]. unfold l in H. apply filter_In in H. destruct H as [H _]. apply active_row_In in H.
    destruct H as [H _]. apply (mo_in _ _ M) in H. now apply (mo_lt _ _ i k a M). }
  rewrite E, combination_div by assumption. field. assumption.
Qed.
Lemma slack_value_local s i j c x y : (forall k, k <> j -> x k = y k) -> c <> 0 -> value_of (slack_value g rows s i j c) x = value_of (slack_value g rows s i j c) y.
Proof.
  intros E N. rewrite !slack_value_of by assumption.
  rewrite (combination_ext (only (fun k => var_active (i_c s) k && negb (Nat.eqb k j)) (row i)) x y); [reflexivity|]. intros k a H. apply E. apply only_In in H. destruct H as [_ H].
  apply andb_true_iff in H. destruct H as [_ H]. apply negb_true_iff, Nat.eqb_neq in H. exact H.
Qed.
Lemma slack_range t lower upper c t' bound : c <> 0 -> (forall r, t = Range r -> 0 <= r) -> slack_sound t lower upper c = true ->
  (exists x, in_domain lower upper x) -> slack_case t lower upper c = Some (t', bound) -> forall r, t' = Range r -> 0 <= r.
Proof.
  intros N R S [x0 [D1 D2]] E r ->. unfold slack_sound, slack_case, in_domain, obound_holds in *.
  destruct (qneg c) eqn:Q, t as [|r0| |], lower as [l|], upper as [h|]; try discriminate; injection E as <- <-; qb;
  specialize (D1 _ eq_refl); specialize (D2 _ eq_refl); cbn [bound_holds] in *; try specialize (R _ eq_refl); qnra.
Qed.

(** ** The rule *)
Definition slack_entry_sound (s : pindex) (j : nat) : Prop :=
  forall i c, In (i, c) (active_column g (i_c s) j) -> slack_sound (type_of g (i_u s) i) (bound_of g (i_u s) j Lower) (bound_of g (i_u s) j Upper) c = true.
Lemma slack_rule_spec s j : tidy nobody s -> implied (view_of s) -> domains g s -> cv s j = 1%nat -> v_cost (gvar g j) = 0 ->
  (forall i, cc s i <> 1%nat) -> slack_entry_sound s j ->
  pspec (slack_rule g rows s j) (@good g rows Cl Kn s) (verdict_holds (view_of s)) False.
Proof.
  intros T I D C1 Z NB SS. assert (Cj : cv s j <> 0%nat) by lia. pose proof (cv_lt _ _ _ _ _ T Cj) as Lj. unfold slack_rule.
  pose proof (td_column g rows _ _ _ T Cj) as LC. rewrite C1 in LC.
  destruct (active_column g (i_c s) j) as [|[i c] [|? ?]] eqn:AC; try discriminate. clear LC. cbn [hd_error unwrap pbind].
  assert (Hc : In (i, c) (col j) /\ cc s i <> 0%nat) by (apply (active_column_In g s j i c); rewrite AC; now left).
  destruct Hc as [Hc Ci]. pose proof (cc_lt _ _ _ _ _ T Ci) as Li. pose proof (mo_nz _ _ M _ _ _ Hc) as Nc. pose proof (proj2 (mo_in _ _ M i j c) Hc) as Hr.
  assert (SO : slack_sound (type_of g (i_u s) i) (bound_of g (i_u s) j Lower) (bound_of g (i_u s) j Upper) c = true) by (apply SS; rewrite AC; now left). clear SS.
  assert (RG : forall r, type_of g (i_u s) i = Range r -> 0 <= r) by (intros r; now apply (td_range _ _ _ _ T)).
  assert (OJ : on_var (view_of s) j = true) by now apply on_var_cv.
  assert (OI : on_row (view_of s) i = true) by now apply on_row_cc.
  assert (DOM : forall x, within g (i_u s) j x <-> in_domain (bound_of g (i_u s) j Lower) (bound_of g (i_u s) j Upper) x).
  { intros x. split; [intros W; split; apply W|intros [W1 W2] [|]; assumption]. }
  assert (ONLY : forall i', on_row (view_of s) i' = true -> i' <> i -> ~ In j (map fst (row i'))).
  { intros i' Hi' Ni' Hin. apply on_row_cc in Hi'. assert (2 <= cv s j)%nat; [|lia]. rewrite (td_column g rows _ _ _ T Cj), <- (map_length fst), active_column_fst.
    apply (two_length _ i' i); [apply alive_NoDup, (in_col_nd g rows M)|assumption| |]; apply alive_In; (split; [|assumption]); apply (in_swap g rows M).
    - exact Hin.
    - now apply (in_map fst) in Hr. }
  set (on' := fun k => var_active (i_c s) k && negb (Nat.eqb k j)).
  assert (ROW : forall x, combination (only (var_active (i_c s)) (row i)) x = c * x j + combination (only on' (row i)) x).
  { intros x. apply (combination_without (var_active (i_c s)) on' (row i) x j c); [reflexivity|apply (mo_nd_row _ _ M)|assumption|exact OJ]. }
  destruct (slack_case (type_of g (i_u s) i) (bound_of g (i_u s) j Lower) (bound_of g (i_u s) j Upper) c) as [[t' bound]|] eqn:SC.
  - (* the row stays *)
    set (sol := match type_of g (i_u s) i with Equal | Range _ => slack_value g rows s i j c | Greater | Less => Solved bound end).
    rewrite (dec_var_ok s j) by assumption. cbn [pbind].
    set (s1 := mark_variable _ j sol).
    assert (CV1 : forall k, cv s1 k = (cv s k - if Nat.eqb k j then 1 else 0)%nat) by (intros; apply nth_lowered).
    pose proof (td_acts _ _ _ _ T) as [O1 O2 O3 O4 O5].
    set (lacks := fun d => match bound_of g (i_u s) j d with None => true | Some _ => false end).
    assert (MISS : forall e, missing g rows s i e = (length (filter (lacks_bound g (i_u s) e) (only on' (row i))) + if lacks (bmul e c) then 1 else 0)%nat).
    { intros e. unfold missing. 
      assert (PP : forall l, NoDup (map fst l) -> In (j, c) l ->
        length (filter (lacks_bound g (i_u s) e) (only (var_active (i_c s)) l)) = (length (filter (lacks_bound g (i_u s) e) (only on' l)) + if lacks (bmul e c) then 1 else 0)%nat).
      { induction l as [|[k a] l IH]; intros ND I'; [contradiction|]. cbn [map fst] in ND. apply NoDup_cons_iff in ND. destruct ND as [NI ND]. destruct I' as [E|I'].
        - injection E as -> ->. unfold only. cbn [filter]. fold (only (var_active (i_c s)) l) (only on' l).
          rewrite (only_without (var_active (i_c s)) on' l j) by (first [reflexivity|assumption]).
          change (var_active (i_c s) j) with (on_var (view_of s) j). rewrite OJ. unfold on'. rewrite Nat.eqb_refl, andb_false_r. cbn [filter].
          unfold lacks_bound at 1. cbn [fst snd]. fold on'. unfold lacks. destruct (bound_of g (i_u s) j (bmul e c)); cbn [length]; lia.
        - unfold only. cbn [filter]. fold (only (var_active (i_c s)) l) (only on' l). unfold on' at 1. destruct (Nat.eqb_spec k j) as [->|].
          + exfalso. apply NI. now apply (in_map fst) in I'.
          + rewrite andb_true_r. destruct (var_active (i_c s) k); cbn [filter]; [|now apply IH]. destruct (lacks_bound g (i_u s) e (k, a)); cbn [length]; rewrite (IH ND I'); lia. }
      apply PP; [apply (mo_nd_row _ _ M)|assumption]. }
    eapply pspec_bind; [eapply pspec_impl; [apply (slack_activity_spec s1 i lacks c)| | |]|].
    + exact O1.
    + exact Li.
    + intros d La. change (ca s i d <> 0%nat). rewrite O3 by assumption. rewrite MISS, La. lia.
    + intros a H. exact H.
    + intros ? [].
    + auto.
    + cbn beta. intros s2 ([R1 R2 R3 R4 R5] & A1 & A2 & A3 & A4 & A5).
      assert (Cs2 : cc s2 i <> 0%nat) by (unfold cc; rewrite R3; exact Ci).
      rewrite (dec_con_ok s2 i) by assumption. cbn [pbind].
      set (s3 := with_c s2 _).
      assert (CC3 : forall k, cc s3 k = (cc s k - if Nat.eqb k i then 1 else 0)%nat) by (intros k; unfold s3, cc; cbn [with_c i_c c_con]; rewrite nth_lowered, R3; reflexivity).
      assert (CV3 : forall k, cv s3 k = (cv s k - if Nat.eqb k j then 1 else 0)%nat) by (intros k; unfold s3, cv; cbn [with_c i_c c_var]; rewrite R2; apply CV1).
      assert (C2 : (2 <= cc s i)%nat) by (specialize (NB i); lia).
      assert (QC : exists s4, queue_constraint g s3 i = Go s4 /\ i_u s4 = i_u s1 /\ i_c s4 = i_c s3 /\ i_act s4 = i_act s /\
         q_sub (i_q s4) = q_sub (i_q s) /\ q_slack (i_q s4) = q_slack (i_q s) /\ q_act (i_q s4) = q_act (i_q s2) /\
         (forall k, In k (q_bound (i_q s4)) <-> In k (q_bound (i_q s)) \/ (k = i /\ cc s i = 2%nat))).
      { unfold queue_constraint. fold (cc s3 i). rewrite CC3, Nat.eqb_refl. destruct (cc s i) as [|[|[|x]]] eqn:E; try lia; cbn [Nat.sub].
        - exists (push_bound s3 i). split; [reflexivity|]. cbn. rewrite R1, A1, A2, R4, R5. do 6 (split; [reflexivity|]). intros k. split; [intros [X|X]; auto|intros [X|[-> _]]; auto].
        - exists s3. split; [reflexivity|]. cbn. rewrite R1, A1, A2, R4, R5. do 6 (split; [reflexivity|]). intros k. split; [auto|intros [X|[_ X]]; [auto|lia]]. }
      destruct QC as (s4 & QC & U4 & C4 & AC4 & Q1 & Q2 & Q3 & Q4). rewrite QC. cbn [pbind pspec]. rewrite U4. clear QC.
      set (u5 := set_type (change_b g (i_u s1) i (- c * bound)) i t'). set (s5 := with_u s4 u5).
      assert (CV : forall k, cv s5 k = (cv s k - if Nat.eqb k j then 1 else 0)%nat) by (intros k; unfold s5, cv; cbn [with_u i_c]; rewrite C4; apply CV3).
      assert (CC : forall k, cc s5 k = (cc s k - if Nat.eqb k i then 1 else 0)%nat) by (intros k; unfold s5, cc; cbn [with_u i_c]; rewrite C4; apply CC3).
      assert (CVj : cv s5 j = 0%nat) by (rewrite CV, Nat.eqb_refl; lia).
      assert (CVk : forall k, k <> j -> cv s5 k = cv s k) by (intros k Hk; rewrite CV; destruct (Nat.eqb_spec k j); [contradiction|lia]).
      assert (CC0 : forall k, cc s5 k <> 0%nat <-> cc s k <> 0%nat) by (intros k; rewrite CC; destruct (Nat.eqb_spec k i) as [->|]; lia).
      assert (CA : forall k e, ca s5 k e = (ca s k e - if Nat.eqb i k && lacks (bmul e c) then 1 else 0)%nat).
      { intros k e. unfold s5, ca. cbn [with_u i_c]. rewrite C4. apply A4. }
      assert (PB : forall k d, pbound g u5 k d = pbound g (i_u s) k d) by reflexivity.
      assert (BO : forall k d, bound_of g u5 k d = bound_of g (i_u s) k d) by reflexivity.
      assert (TYi : type_of g u5 i = t') by (unfold type_of, u5; cbn; unfold put; now rewrite Nat.eqb_refl).
      assert (TYk : forall k, k <> i -> type_of g u5 k = type_of g (i_u s) k) by (intros k Hk; unfold type_of, u5; cbn; unfold put; destruct (Nat.eqb_spec k i); [contradiction|reflexivity]).
      assert (Bi : b_of g u5 i = b_of g (i_u s) i - c * bound) by (change (b_of g u5 i) with (match put (u_b (i_u s)) i (Some (b_of g (i_u s) i + - c * bound)) i with Some b => b | None => nthq (g_b g) i end); unfold put; rewrite Nat.eqb_refl; ring).
      assert (Bk : forall k, k <> i -> b_of g u5 k = b_of g (i_u s) k) by (intros k Hk; unfold b_of at 1, u5; cbn; unfold put; destruct (Nat.eqb_spec k i); [contradiction|reflexivity]).
      assert (V : forall k, on_var (view_of s5) k = on' k).
      { intros k. apply eq_true_iff_eq. unfold on'. change (var_active (i_c s) k) with (on_var (view_of s) k). rewrite andb_true_iff, !on_var_cv, negb_true_iff, Nat.eqb_neq. destruct (Nat.eq_dec k j) as [->|Hk].
        - rewrite CVj. split; [congruence|intros [_ H]; congruence].
        - rewrite CVk by assumption. tauto. }
      assert (ONL : forall k, only (on_var (view_of s5)) (row k) = only on' (row k)) by (intros k; apply only_ext; intros; apply V).
      assert (RO : forall k, on_row (view_of s5) k = on_row (view_of s) k) by (intros k; apply eq_true_iff_eq; rewrite !on_row_cc; apply CC0).
      assert (SV : forall x, value_of sol x = slack_solution (type_of g (i_u s) i) (b_of g (i_u s) i) c bound (combination (only on' (row i)) x)).
      { intros x. unfold sol, slack_solution. destruct (type_of g (i_u s) i); try reflexivity; now apply slack_value_of. }
      assert (ND : exists x, in_domain (bound_of g (i_u s) j Lower) (bound_of g (i_u s) j Upper) x).
      { destruct (feasible_value g (i_u s) j) as [x|] eqn:Fv; [|exfalso; now apply (D j)]. exists x. apply DOM. now apply feasible_value_some. }
      assert (ST : step (view_of s) (view_of s5)).
      { apply (cstep_slack g rows (mo_nd_row _ _ M) (view_of s) (view_of s5) i j c sol); try assumption; try reflexivity.
        - intros x y E. unfold sol. destruct (type_of g (i_u s) i); try reflexivity; now apply slack_value_local.
        - intros k Hk. rewrite RO. cbn [view_of upds s5 with_u i_u]. rewrite TYk, Bk by assumption. now split.
        - intros x F _. cbn [view_of upds s5 with_u i_u]. rewrite ONL, TYi, Bi.
          apply (proj2 (slack_bound_ok _ _ _ _ _ _ _ (combination (only on' (row i)) x) Nc RG SO ND SC) (x j)).
          + apply DOM. now apply I.
          + rewrite <- ROW. apply (proj2 F i OI).
        - intros x H. rewrite RO in H. specialize (H OI). cbn [view_of upds s5 with_u i_u] in H. rewrite ONL, TYi, Bi in H.
          rewrite SV, ONL. destruct (proj1 (slack_bound_ok _ _ _ _ _ _ _ _ Nc RG SO ND SC) H) as [H1 H2]. split; [|exact H2].
          apply within_pwithin; [apply (td_tight _ _ _ _ T)|]. now apply DOM.
        - destruct ND as [x0 Hx0]. exists x0. apply within_pwithin; [apply (td_tight _ _ _ _ T)|]. now apply DOM. }
      split; [|split; [exact ST|split; [|now apply found_same]]].
      2:{ apply (implied_csame g rows _ _ ST I). intros k d _. apply BO. }
      constructor.
      * unfold s5. cbn [with_u i_c]. rewrite C4. unfold s3. cbn [with_c i_c c_var]. rewrite R2. cbn. rewrite lowered_length. apply (td_nv _ _ _ _ T).
      * unfold s5. cbn [with_u i_c]. rewrite C4. unfold s3. cbn [with_c i_c c_con]. rewrite lowered_length, R3. apply (td_nc _ _ _ _ T).
      * apply (bip_delete in_col in_row (in_swap g rows M) (in_row_nd g rows M) (cv s) (cc s) (cv s5) (cc s5) j); try assumption.
        -- apply (td_bip _ _ _ _ T).
        -- intros k. rewrite <- active_column_fst, AC, CC. cbn. now rewrite orb_false_r.
      * change (u_removed (i_u s5)) with (u_removed (i_u s) ++ [(j, sol)]). rewrite map_app. cbn [map fst]. apply NoDup_app_intro; [apply (td_rem_nd _ _ _ _ T)|repeat constructor; auto|].
        intros k H H'. destruct H' as [E|[]]. rewrite <- E in H. apply (td_rem _ _ _ _ T) in H. lia.
      * intros k. change (u_removed (i_u s5)) with (u_removed (i_u s) ++ [(j, sol)]). rewrite map_app, in_app_iff, (td_rem _ _ _ _ T). cbn [map fst In]. destruct (Nat.eq_dec k j) as [->|Hk].
        -- rewrite CVj. unfold nobody. tauto.
        -- rewrite CVk by assumption. intuition congruence.
      * apply (td_gone_nd _ _ _ _ T).
      * intros k. change (u_gone (i_u s5)) with (u_gone (i_u s)). rewrite (td_gone _ _ _ _ T). pose proof (CC0 k). lia.
      * intros k H. change (In k (q_bound (i_q s4))). apply Q4. rewrite CC in H. destruct (Nat.eqb_spec k i) as [E|E]; [right; split; [exact E|rewrite E in H; lia]|]. left. apply (td_bq _ _ _ _ T). lia.
      * intros k H. change (In k (q_bound (i_q s4))) in H. apply Q4 in H. rewrite CC. destruct H as [H|[-> H]].
        -- apply (td_bq' _ _ _ _ T) in H. lia.
        -- rewrite Nat.eqb_refl. lia.
      * intros k H. change (In k (q_slack (i_q s4))) in H. rewrite Q2 in H. apply (td_sq _ _ _ _ T) in H. destruct H as [H1 H2]. split; [rewrite CV; lia|assumption].
      * intros k H. change (In k (q_sub (i_q s4))) in H. rewrite Q1 in H. apply (td_sub _ _ _ _ T) in H. exact H.
      * apply (td_apart _ _ _ _ T).
      * exact (td_tight _ _ _ _ T).
      * intros k r Ck. change (i_u s5) with u5. destruct (Nat.eq_dec k i) as [->|Hk].
        -- rewrite TYi. apply (slack_range _ _ _ _ _ _ Nc RG SO ND SC).
        -- rewrite TYk by assumption. apply (td_range _ _ _ _ T). now apply CC0.
      * constructor.
        -- unfold s5. cbn [with_u i_c]. rewrite C4. exact A3.
        -- change (i_act s5) with (i_act s4). now rewrite AC4.
        -- intros k e Ck. apply CC0 in Ck. rewrite CA, O3 by assumption. destruct (Nat.eqb_spec i k) as [<-|Hk]; cbn [andb].
           ++ rewrite MISS. unfold missing. change (active_row rows (i_c s5) i) with (only (on_var (view_of s5)) (row i)). rewrite ONL.
              change (lacks_bound g (i_u s5) e) with (lacks_bound g (i_u s) e). lia.
           ++ unfold missing. change (active_row rows (i_c s5) k) with (only (on_var (view_of s5)) (row k)). rewrite ONL.
              rewrite (only_without (var_active (i_c s)) on' (row k) j); [|reflexivity|].
              ** change (lacks_bound g (i_u s5) e) with (lacks_bound g (i_u s) e). rewrite Nat.sub_0_r. reflexivity.
              ** apply ONLY; [now apply on_row_cc|congruence].
        -- intros k e Ck K. apply CC0 in Ck. assert (K' : cache s k e <> None) by (unfold cache in *; change (i_act s5) with (i_act s4) in K; now rewrite AC4 in K).
           rewrite CA, (O4 k e Ck K'). reflexivity.
        -- intros k e H Ck. apply CC0 in Ck. change (In (k, e) (q_act (i_q s4))) in H. rewrite Q3 in H. apply A5 in H. destruct H as [H|H].
           ++ change (In (k, e) (q_act (i_q s))) in H. rewrite CA. specialize (O5 k e H Ck). lia.
           ++ assert (E : ca s5 k e = ca s2 k e) by (rewrite CA, A4; reflexivity). now rewrite E.
  - (* the row goes as well *)
    set (sol := slack_value g rows s i j c).
    change (foldP _ (active_row rows (i_c s) i) s) with (foldP (drop_entry g (fun k => Nat.eqb k j) i) (active_row rows (i_c s) i) s).
    set (u1 := mk_updates (u_b (i_u s)) (u_types (i_u s)) (u_fixed (i_u s)) (u_bounds (i_u s)) (u_acts (i_u s)) (u_removed (i_u s) ++ [(j, sol)]) (u_gone (i_u s) ++ [i])).
    set (w1 := mk_view on' (fun k => con_active (i_c s) k && negb (Nat.eqb k i)) u1).
    assert (S1 : step (view_of s) w1).
    { apply (cstep_slack g rows (mo_nd_row _ _ M) (view_of s) w1 i j c sol); try assumption; try reflexivity.
      - intros x y E. now apply slack_value_local.
      - intros k Hk. cbn [w1 on_row view_of upds]. destruct (Nat.eqb_spec k i); [contradiction|]. rewrite andb_true_r. now split.
      - intros x F H. cbn [w1 on_row] in H. rewrite Nat.eqb_refl, andb_false_r in H. discriminate.
      - intros x _. cbn [w1 on_var view_of upds]. unfold sol. rewrite slack_value_of by assumption. fold on'.
        destruct (slack_row_ok _ _ _ (b_of g (i_u s) i) c Nc RG SO SC (combination (only on' (row i)) x)) as [H1 H2]. split; [|exact H2].
        apply within_pwithin; [apply (td_tight _ _ _ _ T)|]. now apply DOM.
      - destruct (feasible_value g (i_u s) j) as [x0|] eqn:Fv; [|exfalso; now apply (D j)]. exists x0. apply within_pwithin; [apply (td_tight _ _ _ _ T)|]. now apply feasible_value_some. }
    assert (I1 : implied w1) by (apply (implied_csame g rows _ _ S1 I); reflexivity).
    set (L := active_row rows (i_c s) i) in *. pose proof (active_row_nd g rows M s i) as NDL. fold L in NDL.
    assert (LV : forall k, In k (map fst L) -> cv s k <> 0%nat).
    { intros k Hk. unfold L in Hk. rewrite active_row_fst in Hk. now apply alive_In in Hk. }
    assert (ONLY' : forall k, In k (map fst L) -> cv s k = 1%nat -> forall i', on_row w1 i' = true -> ~ In k (map fst (row i'))).
    { intros k Hk Ck i' Hi' Hin. cbn in Hi'. apply andb_true_iff in Hi'. destruct Hi' as [Oi' Ni']. apply (on_row_cc s) in Oi'. apply negb_true_iff, Nat.eqb_neq in Ni'.
      assert (2 <= cv s k)%nat; [|lia]. assert (Ck' : cv s k <> 0%nat) by lia. rewrite (td_column g rows _ _ _ T Ck'), <- (map_length fst), active_column_fst.
      apply (two_length _ i' i); [apply alive_NoDup, (in_col_nd g rows M)|assumption| |]; apply alive_In; (split; [|assumption]); apply (in_swap g rows M).
      - exact Hin.
      - unfold L in Hk. rewrite active_row_fst in Hk. now apply alive_In in Hk. }
    assert (JL : In j (map fst L)) by (unfold L; apply in_map_iff; exists (j, c); split; [reflexivity|]; now apply active_row_In).
    (* a variable of this row that is in no other row, besides j *)
    eapply pspec_bind; [eapply pspec_impl; [apply (drop_entries_spec g (fun k => Nat.eqb k j) i L s)| | |]|].
    + assumption.
    + exact LV.
    + unfold L. rewrite <- (td_row g rows _ _ _ T Ci). lia.
    + intros k Hk. apply D. now apply LV.
    + intros a H. exact H.
    + cbn beta. intros v (-> & k & Hk & Ck & NC & OC). apply (verdict_cstep g rows _ _ _ S1).
      assert (Dk : k <> j) by (intros ->; contradiction).
      apply (free_unbounded g rows w1 k); try assumption.
      * apply (cv_lt _ _ _ _ _ T). lia.
      * cbn [w1 on_var]. unfold on'. destruct (Nat.eqb_spec k j); [contradiction|]. rewrite andb_true_r. apply (on_var_cv s). lia.
      * now apply ONLY'.
      * exact (td_tight _ _ _ _ T).
    + auto.
    + cbn beta. intros s1 (A1 & A2 & A3 & A4 & A5 & A6 & A7 & A8 & A9 & A10 & fr & B1 & B2 & B3). cbn [pspec].
      set (s2 := mark_constraint (mark_variable s1 j sol) i).
      assert (CCi : cc s2 i = 0%nat) by (change (cc s1 i = 0%nat); rewrite A5, Nat.eqb_refl, (td_row g rows _ _ _ T Ci); fold L; lia).
      assert (CCs : forall k, k <> i -> cc s2 k = cc s k) by (intros k Hk; change (cc s1 k = cc s k); rewrite A5; destruct (Nat.eqb_spec k i); [contradiction|lia]).
      assert (CVs : forall k, cv s2 k = (cv s k - if memb k (map fst L) then 1 else 0)%nat) by exact A6.
      assert (SF : forall k, In k (map fst fr) <-> In k (map fst L) /\ cv s k = 1%nat /\ k <> j).
      { intros k. rewrite B2, filter_In, andb_true_iff, negb_true_iff, Nat.eqb_eq, Nat.eqb_neq. reflexivity. }
      assert (RM : u_removed (i_u s2) = (u_removed (i_u s) ++ map (fun '(k, v) => (k, Solved v)) fr) ++ [(j, sol)]) by (cbn; rewrite B1; reflexivity).
      assert (FS : map fst (u_removed (i_u s2)) = (map fst (u_removed (i_u s)) ++ map fst fr) ++ [j]).
      { rewrite RM. rewrite !map_app, map_map. f_equal. f_equal. apply map_ext. intros [? ?]. reflexivity. }
      set (w2 := mk_view (on_var (view_of s2)) (on_row (view_of s2)) (add_solved g u1 fr)).
      assert (S2 : step w1 w2).
      { apply (step_free_list g rows fr).
        - rewrite B2. now apply NoDup_filter.
        - exact (td_tight _ _ _ _ T).
        - exact I1.
        - intros k. apply eq_true_iff_eq. change (on_var w2 k) with (on_var (view_of s2) k). change (on_var w1 k) with (on_var (view_of s) k && negb (Nat.eqb k j)).
          rewrite !andb_true_iff, !negb_true_iff, !on_var_cv, CVs, Nat.eqb_neq.
          rewrite <- not_true_iff_false, memb_In, SF. destruct (memb k (map fst L)) eqn:E.
          + apply memb_In in E. split; [intros H; split; [split; [lia|intros ->; lia]|intros (_ & H' & _); lia]|]. intros [[H1 H2] H3]. assert (cv s k <> 1%nat) by (intros H4; apply H3; now repeat split). lia.
          + apply memb_false in E. split; [intros H; split; [split; [lia|intros ->; contradiction]|tauto]|intros [[H _] _]; lia].
        - intros k. apply eq_true_iff_eq. cbn [on_row w1]. rewrite andb_true_iff, negb_true_iff, Nat.eqb_neq.
          change (on_row w2 k) with (on_row (view_of s2) k). rewrite on_row_cc. change (con_active (i_c s) k) with (on_row (view_of s) k). rewrite on_row_cc.
          destruct (Nat.eq_dec k i) as [->|Hk]; [rewrite CCi; tauto|rewrite CCs by assumption; tauto].
        - reflexivity.
        - intros k v Hk. pose proof (in_map fst _ _ Hk) as Hk'. cbn in Hk'. apply SF in Hk'. destruct Hk' as (Hk1 & Hk2 & Hk3). repeat split.
          + apply (cv_lt _ _ _ _ _ T). lia.
          + cbn [w1 on_var]. unfold on'. destruct (Nat.eqb_spec k j); [contradiction|]. rewrite andb_true_r. apply (on_var_cv s). lia.
          + now apply ONLY'.
          + apply (B3 k v Hk).
          + apply D. lia. }
      assert (S3 : step w2 (view_of s2)).
      { apply step_reorder.
        - reflexivity.
        - intros x. unfold PreView.feas. cbn [w2 view_of upds]. cbn [s2 mark_constraint mark_variable with_u i_u]. rewrite B1. reflexivity.
        - cbn [w2 view_of upds]. cbn [s2 mark_constraint mark_variable with_u i_u]. rewrite B1. reflexivity.
        - intros e. cbn [w2 view_of upds]. rewrite RM. cbn [add_solved u_removed u1]. rewrite !in_app_iff. tauto.
        - intros D0 _ x. unfold PreView.feas, cut. cbn [w2 view_of on_var on_row upds]. cbn [s2 mark_constraint mark_variable with_u i_u]. rewrite B1. exact (fun H => H). }
      assert (ST : step (view_of s) (view_of s2)) by exact (cstep_trans g rows _ _ _ S1 (cstep_trans g rows _ _ _ S2 S3)).
      split; [|split; [exact ST|split; [|apply found_same; cbn; now rewrite B1]]].
      2:{ apply (implied_csame g rows _ _ ST I). intros k d _. cbn [view_of upds]. cbn [s2 mark_constraint mark_variable with_u i_u]. rewrite B1. reflexivity. }
      apply (gone_tidy g rows M s s2 i nobody T Ci CVs CCi CCs nobody); try assumption; try (cbn; rewrite B1; reflexivity).
      * intros x H. apply A10 in H. destruct H as [H|(H1 & H2 & H3)]; [now left|]. right. split; [|assumption]. rewrite CVs. apply memb_In in H1. rewrite H1. lia.
      * rewrite FS. apply NoDup_app_intro; [apply NoDup_app_intro| |].
        -- apply (td_rem_nd _ _ _ _ T).
        -- rewrite B2. now apply NoDup_filter.
        -- intros x H1 H2. apply SF in H2. apply (td_rem _ _ _ _ T) in H1. lia.
        -- repeat constructor. auto.
        -- intros x H [<-|[]]. apply in_app_or in H. destruct H as [H|H]; [apply (td_rem _ _ _ _ T) in H; lia|apply SF in H; tauto].
      * intros k. rewrite FS, !in_app_iff, SF, (td_rem _ _ _ _ T), CVs. cbn [In]. destruct (memb k (map fst L)) eqn:E.
        -- apply memb_In in E. pose proof (LV k E) as Hv. pose proof (cv_lt _ _ _ _ _ T Hv) as Hl.
           split; [intros [[(_ & H' & _)|(_ & H' & _)]|[<-|[]]]; repeat split; (lia || assumption)|]. intros (_ & H' & _).
           destruct (Nat.eq_dec k j) as [->|Dk]; [right; now left|left; right; repeat split; [assumption|lia|assumption]].
        -- apply memb_false in E. rewrite Nat.sub_0_r. split; [intros [[H|(H & _)]|[<-|[]]]; [assumption|contradiction|contradiction]|intros H; now repeat left].
Qed.
End Slack.
