(** * Presolving: a debug build follows the same steps as a release build *)
From Verif Require Import SpecGeneral SparseP LinAlg KindP InitP.
From Verif Require Export PreAgreeRow PreLoop.
Local Open Scope Qc_scope.

(** ** The rule for bound constraints does not look at the queue of bound constraints *)
Section BlindD.
Variable on : site -> bool.
Variables (g : general) (rows : list svec).
Definition unseen (F : pindex -> pr pindex) : Prop := forall qb s, F (set_qb qb s) = pmap (set_qb qb) (F s).
Lemma unseen_bind F G : unseen F -> unseen G -> unseen (fun s => let+ s' := F s in G s').
Proof. intros HF HG qb s. rewrite HF. destruct (F s); cbn; try reflexivity. apply HG. Qed.
Lemma unseen_fold {A} (f : pindex -> A -> pr pindex) : (forall a, unseen (fun s => f s a)) -> forall l, unseen (fun s => foldP f l s).
Proof. intros H. induction l as [|a l IH]; [intros qb s; reflexivity|]. exact (unseen_bind (fun s => f s a) (fun s => foldP f l s) (H a) IH). Qed.
Lemma unseen_assert k (b : pindex -> bool) F : (forall qb s, b (set_qb qb s) = b s) -> unseen F -> unseen (fun s => assert_that on k (b s) (F s)).
Proof. intros H HF qb s. unfold assert_that. rewrite H. destruct (on k && negb (b s)); [reflexivity|apply HF]. Qed.
Lemma unseen_assert_run k (b : pindex -> pr bool) F : (forall qb s, b (set_qb qb s) = b s) -> unseen F -> unseen (fun s => assert_run on k (b s) (F s)).
Proof. intros H HF qb s. unfold assert_run. rewrite H. destruct (on k); [|apply HF]. destruct (b s) as [[|]| | |]; cbn; try reflexivity. apply HF. Qed.
Lemma unseen_let {A} (x : pindex -> pr A) (F : A -> pindex -> pr pindex) : (forall qb s, x (set_qb qb s) = x s) -> (forall a, unseen (F a)) -> unseen (fun s => let+ a := x s in F a s).
Proof. intros H HF qb s. rewrite H. destruct (x s); cbn; try reflexivity. apply HF. Qed.
Lemma unseen_go f : (forall qb s, f (set_qb qb s) = set_qb qb (f s)) -> unseen (fun s => Go (f s)).
Proof. intros H qb s. cbn. now rewrite H. Qed.
Lemma unseen_stop v : unseen (fun s => Stop v).
Proof. intros qb s. reflexivity. Qed.
Lemma unseen_panic : unseen (fun s => PPanic).
Proof. intros qb s. reflexivity. Qed.

Lemma shift_unseen d ch e : unseen (fun s => shift_activity_d on d ch s e).
Proof.
  destruct e as [i c]. intros qb s. unfold shift_activity_d. cbn [set_qb with_q i_c i_act]. destruct (con_active (i_c s) i); [|reflexivity].
  destruct (side (bmul d c) (nth i (i_act s) (None, None))); [|reflexivity]. unfold assert_that. destruct (on ShiftedCounter && _); [reflexivity|]. cbn [pmap pbind].
  f_equal. apply (push_act_qb qb (with_act s _)).
Qed.
Lemma apply_change_unseen j d ch : unseen (fun s => apply_change_d on g s j d ch).
Proof.
  destruct ch as [| |x]; unfold apply_change_d; [apply (unseen_go (fun s => s)); reflexivity| |]; unfold after_bound_change_d;
    (apply unseen_assert; [reflexivity|]); (apply unseen_assert; [reflexivity|]); (apply unseen_let; [reflexivity|]); intros f.
  - apply (unseen_bind (fun s => Go (match f with Some _ => if var_active (i_c s) j then push_sub s j else s | None => s end)) (fun s => update_activity_counters_d on g s j d)).
    + apply unseen_go. intros qb s. cbn [set_qb with_q i_c]. destruct f; [|reflexivity]. now destruct (var_active (i_c s) j).
    + unfold update_activity_counters_d. apply (unseen_let (fun s => active_column_d on g (i_c s) j) (fun l s => foldP (lower_counter d) l s)); [reflexivity|].
      intros l. apply unseen_fold. intros e. exact (proj1 (blind_lower_counter d e)).
  - apply (unseen_bind (fun s => Go (match f with Some _ => if var_active (i_c s) j then push_sub s j else s | None => s end)) (fun s => update_activity_bounds_d on g s j d x)).
    + apply unseen_go. intros qb s. cbn [set_qb with_q i_c]. destruct f; [|reflexivity]. now destruct (var_active (i_c s) j).
    + unfold update_activity_bounds_d. apply unseen_assert; [reflexivity|]. apply (unseen_let (fun s => active_column_d on g (i_c s) j) (fun l s => foldP (shift_activity_d on d x) l s)); [reflexivity|].
      intros l. apply unseen_fold. intros e. apply shift_unseen.
Qed.
Lemma mark_variable_unseen j r : unseen (fun s => mark_variable_d on s j r).
Proof. unfold mark_variable_d. apply unseen_assert; [reflexivity|]. apply (unseen_go (fun s => mark_variable s j r)). reflexivity. Qed.
Lemma mark_constraint_unseen i : unseen (fun s => mark_constraint_d on s i).
Proof. unfold mark_constraint_d. apply unseen_assert; [reflexivity|]. apply (unseen_go (fun s => mark_constraint s i)). reflexivity. Qed.
Lemma dec_con_unseen i : unseen (fun s => dec_con s i).
Proof. intros qb s. unfold dec_con. cbn [set_qb with_q i_c]. destruct (dec (c_con (i_c s)) i); reflexivity. Qed.
Lemma queue_variable_unseen j : unseen (fun s => queue_variable_d on g s j).
Proof.
  intros qb s. unfold queue_variable_d. change (i_c (set_qb qb s)) with (i_c s). change (i_u (set_qb qb s)) with (i_u s).
  destruct (nth j (c_var (i_c s)) 0%nat) as [|[|k]].
  - set (A := fun s : pindex => assert_run on ValueLeft (let+ v := feasible_value_d on g (i_u s) j in Go (is_some v))
        (if qzero (v_cost (gvar g j)) then
           let+ v := feasible_value_d on g (i_u s) j in
           let+ v := unwrap v in
           mark_variable_d on s j (Solved v)
         else
           assert_that on ColumnCost (negb (qzero (v_cost (gvar g j))))
             (let+ l := bound_of_d on g (i_u s) j Lower in
              let+ h := bound_of_d on g (i_u s) j Upper in
              let+ v := optimize_column g (v_cost (gvar g j)) l h in
              mark_variable_d on (with_u s (add_cost (i_u s) (v_cost (gvar g j) * v))) j (Solved v)))).
    change (A (set_qb qb s) = pmap (set_qb qb) (A s)). revert qb s. change (unseen A). unfold A. apply unseen_assert_run; [reflexivity|].
    destruct (qzero (v_cost (gvar g j))).
    + apply (unseen_let (fun s => feasible_value_d on g (i_u s) j) (fun v s => let+ v := unwrap v in mark_variable_d on s j (Solved v))); [reflexivity|]. intros v.
      apply (unseen_let (fun s => unwrap v) (fun v s => mark_variable_d on s j (Solved v))); [reflexivity|]. intros w. apply mark_variable_unseen.
    + apply unseen_assert; [reflexivity|]. apply (unseen_let (fun s => bound_of_d on g (i_u s) j Lower)); [reflexivity|]. intros l.
      apply (unseen_let (fun s => bound_of_d on g (i_u s) j Upper) (fun h s => let+ v := optimize_column g (v_cost (gvar g j)) l h in
              mark_variable_d on (with_u s (add_cost (i_u s) (v_cost (gvar g j) * v))) j (Solved v))); [reflexivity|]. intros h.
      apply (unseen_let (fun s => optimize_column g (v_cost (gvar g j)) l h) (fun v s => mark_variable_d on (with_u s (add_cost (i_u s) (v_cost (gvar g j) * v))) j (Solved v))); [reflexivity|].
      intros v qb s. exact (mark_variable_unseen j (Solved v) qb (with_u s (add_cost (i_u s) (v_cost (gvar g j) * v)))).
  - cbn [pmap pbind]. destruct (qzero (v_cost (gvar g j))); reflexivity.
  - reflexivity.
Qed.
Lemma bound_rule_unseen i : unseen (fun s => bound_constraint_rule_d on g rows s i).
Proof.
  unfold bound_constraint_rule_d. apply unseen_assert; [reflexivity|]. apply unseen_assert_run; [reflexivity|].
  apply unseen_let; [reflexivity|]. intros l. apply (unseen_let (fun s => unwrap (hd_error l))); [reflexivity|]. intros [j c].
  apply unseen_assert; [reflexivity|]. apply (unseen_let (fun s => b_of_d on g (i_u s) i)); [reflexivity|]. intros b.
  apply (unseen_let (fun s => type_of_d on g (i_u s) i)); [reflexivity|]. intros t. cbv zeta.
  apply (unseen_bind (fun s => dec_var s j)); [exact (proj1 (blind_dec_var j))|].
  apply (unseen_bind (fun s => dec_con s i)); [apply dec_con_unseen|].
  apply (unseen_bind (fun s => mark_constraint_d on s i)); [apply mark_constraint_unseen|].
  apply (unseen_bind (fun s => foldP (fun s '(d, x) => let+ r := update_bound_d on g (i_u s) j d x in apply_change_d on g (with_u s (fst r)) j d (snd r)) (bounds_from b t c) s)).
  - apply unseen_fold. intros [d x]. apply (unseen_let (fun s => update_bound_d on g (i_u s) j d x)); [reflexivity|]. intros [u ch] qb s. exact (apply_change_unseen j d ch qb (with_u s u)).
  - apply (unseen_let (fun s => feasible_value_d on g (i_u s) j)); [reflexivity|]. intros [v|]; [apply queue_variable_unseen|apply unseen_stop].
Qed.
End BlindD.

Section LoopD.
Variable on : site -> bool.
Variables (g : general) (rows : list svec).
Local Notation n := (nr_vars g).
Local Notation m := (g_rows g).
Local Notation calm := (calm g rows).
Hypothesis M : matrix_ok g rows.
Hypothesis off : on SlackFixed = false.

(** the one state in which a release build panics *)
Definition stuck (s : pindex) : Prop := exists i d, next_action s = Propagate i d /\ ca s i d = 0%nat /\ range_at_bound g rows s i d.
Lemma calm_queues s q : calm s -> (forall i, cc s i = 1%nat -> In i (q_bound q)) -> incl (q_sub q) (q_sub (i_q s)) -> incl (q_bound q) (q_bound (i_q s)) ->
  incl (q_slack q) (q_slack (i_q s)) -> incl (q_act q) (q_act (i_q s)) -> calm (with_q s q).
Proof using. intros (T & O & R) H1 H2 H3 H4 H5. split; [now apply books_queues|]. now split. Qed.

Lemma presolve_step_agree s : calm s -> agree (presolve_step_d on g rows s) (presolve_step g rows s) (fun r => calm (fst r)) (stuck s).
Proof using M off.
  intros CALM. pose proof CALM as (T & O & R). pose proof (eq_refl (next_action s)) as NA. unfold next_action at 2 in NA. unfold presolve_step_d, presolve_step.
  set (q := i_q s) in *. set (sub := match q_sub q with [] => (None, []) | j :: t => _ end).
  assert (SUB : fst sub = match q_sub q with [] => None | j :: _ => if var_active (i_c s) j then Some j else None end) by (unfold sub; destruct (q_sub q); reflexivity).
  assert (INC : incl (snd sub) (q_sub q)) by (unfold sub; destruct (q_sub q) as [|j t]; cbn [snd]; [apply incl_refl|apply incl_tl, incl_refl]).
  rewrite <- SUB in NA. destruct (fst sub) as [j|] eqn:FS.
  { assert (J : In j (q_sub q) /\ cv s j <> 0%nat).
    { destruct (q_sub q) as [|k t]; [discriminate|]. destruct (var_active (i_c s) k) eqn:V; [|discriminate]. injection SUB as ->. split; [now left|]. now apply (on_var_cv s). }
    destruct J as [J1 J2]. eapply agree_bind; [eapply agree_impl; [apply (fixed_variable_agree on g rows M (with_q s _) j)|intros s' X; exact X|intros []]|].
    - apply calm_queues; try assumption; try apply incl_refl. apply (bk_bq _ _ _ _ T).
    - apply (bk_sub _ _ _ _ T). exact J1.
    - exact J2.
    - intros s' X. now apply agree_go. }
  pose proof (drain_spec (con_active (i_c s)) (q_bound q)) as DB. destruct (drain (con_active (i_c s)) (q_bound q)) as [[i|] tb] eqn:EB; cbn [fst snd] in *.
  { destruct DB as (Oi & pre & QB & PRE). apply (on_row_cc s) in Oi.
    assert (C1 : cc s i = 1%nat) by (assert (In i (q_bound q)) by (rewrite QB; apply in_or_app; right; now left); pose proof (bk_bq' _ _ _ _ T i H); lia).
    set (s0 := with_q s (mk_queues (snd sub) (i :: tb) (q_slack q) (q_act q))).
    change (with_q s (mk_queues (snd sub) tb (q_slack q) (q_act q))) with (set_qb tb s0).
    assert (T0 : calm s0).
    { apply calm_queues; try assumption; cbn [q_sub q_bound q_slack q_act]; try apply incl_refl.
      - intros k Ck. pose proof (bk_bq _ _ _ _ T k Ck) as H. fold q in H. rewrite QB in H. apply in_app_or in H. destruct H as [H|H]; [|exact H].
        apply PRE in H. apply (on_row_false s) in H. rewrite H in Ck. discriminate.
      - fold q. rewrite QB. apply incl_appr, incl_refl. }
    rewrite bound_rule_qb, (bound_rule_unseen on g rows i tb s0). unfold pmap.
    destruct (bound_constraint_agree on g rows M s0 i T0 C1) as [E P]. rewrite E. clear E. split; [reflexivity|].
    destruct (bound_constraint_rule g rows s0 i) as [s'|v| |] eqn:E; cbn [pbind pspec fst] in *; try assumption; [|contradiction].
    assert (QS : q_bound (i_q s') = i :: tb).
    { pose proof (bound_rule_qb g rows (i :: tb) s0 i) as Q. change (set_qb (i :: tb) s0) with s0 in Q. rewrite E in Q. cbn in Q. injection Q as Q. rewrite Q. reflexivity. }
    assert (Z : cc s' i = 0%nat).
    { apply (bound_rule_row g rows s0 i s'); [|exact C1|exact E]. change (i_c s0) with (i_c s). rewrite (bk_nc _ _ _ _ T). apply (bk_cc _ _ _ _ _ T). lia. }
    unfold set_qb. apply calm_queues; try assumption; cbn [q_sub q_bound q_slack q_act]; try apply incl_refl.
    - intros k Ck. destruct P as (P & _). pose proof (bk_bq _ _ _ _ P k Ck) as H. rewrite QS in H. destruct H as [<-|H]; [congruence|exact H].
    - rewrite QS. apply incl_tl, incl_refl. }
  destruct DB as [-> DB].
  assert (NB : forall k, cc s k <> 1%nat).
  { intros k Ck. pose proof (bk_bq _ _ _ _ T k Ck) as H. apply DB in H. apply (on_row_false s) in H. rewrite H in Ck. discriminate. }
  pose proof (drain_spec (var_active (i_c s)) (q_slack q)) as DS. destruct (drain (var_active (i_c s)) (q_slack q)) as [[j|] ts] eqn:ES; cbn [fst snd] in *.
  { destruct DS as (Oj & pre & QS & PRE). apply (on_var_cv s) in Oj.
    assert (IJ : In j (q_slack q)) by (rewrite QS; apply in_or_app; right; now left). destruct (bk_sq _ _ _ _ T j IJ) as [C1 CZ].
    eapply agree_bind; [eapply agree_impl; [apply (slack_agree on g rows M (with_q s _) j off)|intros s' X; exact X|intros []]|].
    - apply calm_queues; try assumption; cbn [q_sub q_bound q_slack q_act]; try apply incl_refl.
      + intros x [].
      + fold q. rewrite QS. apply incl_appr, incl_tl, incl_refl.
    - change (cv s j = 1%nat). lia.
    - assumption.
    - exact NB.
    - intros s' X. now apply agree_go. }
  destruct DS as [-> DS].
  pose proof (drain_spec (fun e : nat * bdir => con_active (i_c s) (fst e)) (q_act q)) as DA.
  destruct (drain (fun e : nat * bdir => con_active (i_c s) (fst e)) (q_act q)) as [[[i d]|] ta] eqn:EA; cbn [fst snd] in *.
  - destruct DA as (Oi & pre & QA & PRE). apply (on_row_cc s) in Oi.
    assert (IA : In (i, d) (q_act q)) by (rewrite QA; apply in_or_app; right; now left).
    rewrite assert_ok by (apply Nat.ltb_lt; change (1 < cc s i)%nat; specialize (NB i); lia).
    eapply agree_impl; [apply (domain_propagation_agree on g rows M (with_q s _) i d)|auto|].
    + apply calm_queues; try assumption; cbn [q_sub q_bound q_slack q_act]; try apply incl_refl.
      * intros x [].
      * intros x [].
      * fold q. rewrite QA. apply incl_appr, incl_tl, incl_refl.
    + exact Oi.
    + apply (ao_queue _ _ _ (bk_acts _ _ _ _ T) i d IA Oi).
    + intros [H1 H2]. exists i, d. split; [exact NA|]. now split.
  - destruct DA as [-> DA]. apply agree_go. cbn [fst].
    apply calm_queues; try assumption; cbn [q_sub q_bound q_slack q_act]; intros x [].
Qed.

(** ** The loop *)
Lemma remaining_go s : calm s -> exists r, nr_remaining g (i_u s) = Go r.
Proof using.
  intros (T & _). unfold nr_remaining.
  assert (L1 : (length (u_removed (i_u s)) <= length (g_vars g))%nat).
  { rewrite <- (map_length fst). rewrite <- (seq_length (length (g_vars g)) 0). apply NoDup_incl_length; [apply (bk_rem_nd _ _ _ _ T)|]. intros j Hj. apply (bk_rem _ _ _ _ T) in Hj. apply in_seq. unfold nr_vars in Hj. lia. }
  assert (L2 : (length (u_gone (i_u s)) <= m)%nat).
  { rewrite <- (seq_length m 0). apply NoDup_incl_length; [apply (bk_gone_nd _ _ _ _ T)|]. intros j Hj. apply (bk_gone _ _ _ _ T) in Hj. apply in_seq. lia. }
  destruct (Nat.ltb_spec (length (g_vars g)) (length (u_removed (i_u s)))); [lia|]. destruct (Nat.ltb_spec m (length (u_gone (i_u s)))); [lia|]. cbn. now eexists.
Qed.
(** the states of a run *)
Inductive leads : pindex -> pindex -> Prop :=
| leads_here : forall s, leads s s
| leads_step : forall s s' s'' ch, presolve_step g rows s = Go (s', ch) -> leads s' s'' -> leads s s''.
Lemma presolve_loop_agree : forall fuel stale s, calm s ->
  presolve_loop_d on g rows fuel stale s = presolve_loop g rows fuel stale s /\
  match presolve_loop g rows fuel stale s with
  | Go s' => calm s'
  | PPanic => exists s', leads s s' /\ stuck s'
  | _ => True
  end.
Proof using M off.
  induction fuel as [|fuel IH]; intros stale s CALM; cbn [presolve_loop presolve_loop_d]; (destruct (queues_empty (i_q s)); [now split|]);
    destruct (remaining_go s CALM) as [r Er]; rewrite Er; cbn [pbind]; (destruct (Nat.leb r stale); [now split|]).
  - now split.
  - destruct (presolve_step_agree s CALM) as [E P]. rewrite E. destruct (presolve_step g rows s) as [[s' ch]|v| |] eqn:ST; cbn [pspec pbind fst snd] in *; try (now split).
    + assert (X : forall st, presolve_loop_d on g rows fuel st s' = presolve_loop g rows fuel st s' /\ match presolve_loop g rows fuel st s' with
        | Go s' => calm s' | PPanic => exists s', leads s s' /\ stuck s' | _ => True end).
      { intros st. destruct (IH st s' P) as [I1 I2]. split; [assumption|]. destruct (presolve_loop g rows fuel st s'); try assumption.
        destruct I2 as (s2 & L & K). exists s2. split; [|assumption]. now apply (leads_step s s' s2 ch). }
      destruct ch; apply X.
    + split; [reflexivity|]. exists s. split; [constructor|assumption].
Qed.

(** ** The start *)
Hypothesis G : general_ok g.
Lemma empty_column_d_ok u j : (j < n)%nat -> empty_column_d on g u j = empty_column g u j.
Proof using G.
  intros L. unfold empty_column_d. apply assert_ok. pose proof (start_values g G j L) as H. now destruct (feasible_value g no_updates j).
Qed.
Lemma index_new_same : index_new_d on g rows = index_new g rows.
Proof using G.
  unfold index_new_d, index_new. cbv zeta. assert (E : updates_new_d on g (counters_new g rows) = updates_new g (counters_new g rows)); [|now rewrite E].
  unfold updates_new_d, updates_new. rewrite (foldP_ext (empty_column_d on g) (empty_column g)); [reflexivity|].
  intros u j H. apply empty_column_d_ok. apply filter_In in H. destruct H as [H _]. apply In_range in H. unfold nr_vars. lia.
Qed.
Lemma fold_same {A B S} (f : S -> A -> pr S) (v : S -> B) : (forall s a s', f s a = Go s' -> v s' = v s) -> forall l s s', foldP f l s = Go s' -> v s' = v s.
Proof using.
  intros H. induction l as [|a l IH]; intros s s' E; cbn [foldP] in E; [now injection E as <-|]. apply pbind_go in E. destruct E as (s1 & E1 & E2).
  apply H in E1. apply IH in E2. congruence.
Qed.
Lemma index_new_bounds s : index_new g rows = Go s -> u_bounds (i_u s) = u_bounds no_updates /\ u_acts (i_u s) = u_acts no_updates.
Proof using.
  unfold index_new, updates_new. intros E. apply pbind_go in E. destruct E as (u & E & X). injection X as <-. cbn [i_u]. apply pbind_go in E. destruct E as (u1 & E1 & E2).
  assert (H1 : u_bounds u1 = u_bounds no_updates /\ u_acts u1 = u_acts no_updates).
  { split.
    - refine (fold_same _ u_bounds _ _ _ _ E1). intros u0 j u2. unfold empty_column. intros X. apply pbind_go in X. destruct X as ([v c] & _ & X). now injection X as <-.
    - refine (fold_same _ u_acts _ _ _ _ E1). intros u0 j u2. unfold empty_column. intros X. apply pbind_go in X. destruct X as ([v c] & _ & X). now injection X as <-. }
  destruct H1 as [H1 H2]. rewrite <- H1, <- H2. split.
  - refine (fold_same _ u_bounds _ _ _ _ E2). intros u0 j u2. unfold empty_row. destruct (empty_feasible _ _); intros X; [now injection X as <-|discriminate].
  - refine (fold_same _ u_acts _ _ _ _ E2). intros u0 j u2. unfold empty_row. destruct (empty_feasible _ _); intros X; [now injection X as <-|discriminate].
Qed.
Lemma index_new_calm : agree (index_new_d on g rows) (index_new g rows) calm False.
Proof using M G.
  rewrite index_new_same. split; [reflexivity|]. pose proof (index_new_spec g rows G M) as P.
  destruct (index_new g rows) as [s|v| |] eqn:E; cbn [pspec] in *; try assumption; [|exact Logic.I]. destruct P as (P & _). split; [now apply tidy_books|].
  destruct (index_new_bounds s E) as [B A]. split.
  - intros j l h. unfold bound_of. rewrite B, A. cbn. intros EL EU. destruct (Nat.lt_ge_cases j n) as [L|L].
    + now apply (gok_domain _ G j l h L).
    + unfold gvar in EL. rewrite nth_overflow in EL by exact L. discriminate.
  - intros i r Ci. apply (td_range _ _ _ _ P i r Ci).
Qed.
End LoopD.
