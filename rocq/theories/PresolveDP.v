(** * The assertions only add panics: a debug build of presolving panics or does as a release build *)
From Verif Require Import PreCount.
From Verif Require Export PresolveD.
Local Open Scope Qc_scope.

Section Only.
Variable on : site -> bool.
(** the same, or a failed assertion *)
Definition only {A} (xd x : pr A) : Prop := xd = x \/ (xd = PPanic /\ exists k, on k = true).
Lemma only_refl {A} (x : pr A) : only x x.
Proof. now left. Qed.
Lemma only_bind {A B} (xd x : pr A) (fd f : A -> pr B) : only xd x -> (forall a, only (fd a) (f a)) -> only (pbind xd fd) (pbind x f).
Proof. intros [->|[-> K]] H; [|right; now split]. destruct x; cbn; first [apply H|now left]. Qed.
Lemma only_read {A B} (xd : pr A) a (fd : A -> pr B) x : only xd (Go a) -> only (fd a) x -> only (pbind xd fd) x.
Proof. intros [->|[-> K]] H; [exact H|right; now split]. Qed.
Lemma only_then {A} (xd x : pr A) (fd : A -> pr A) : only xd x -> (forall a, only (fd a) (Go a)) -> only (pbind xd fd) x.
Proof. intros [->|[-> K]] H; [|right; now split]. destruct x; cbn; first [apply H|now left]. Qed.
Lemma only_assert {A} k b (xd x : pr A) : only xd x -> only (assert_that on k b xd) x.
Proof. intros H. unfold assert_that. destruct (on k) eqn:E; [|exact H]. destruct b; [exact H|]. right. split; [reflexivity|now exists k]. Qed.
Lemma only_assert_run {A} k b v (xd x : pr A) : only b (Go v) -> only xd x -> only (assert_run on k b xd) x.
Proof.
  intros Hb H. unfold assert_run. destruct (on k) eqn:E; [|exact H]. destruct Hb as [->|[-> K]]; cbn [pbind]; [|right; now split].
  destruct v; [exact H|]. right. split; [reflexivity|now exists k].
Qed.
Lemma only_fold {A S} (fd f : S -> A -> pr S) : (forall s a, only (fd s a) (f s a)) -> forall l s, only (foldP fd l s) (foldP f l s).
Proof. intros H. induction l as [|a l IH]; intros s; cbn [foldP]; [apply only_refl|]. apply only_bind; [apply H|]. intros s'. apply IH. Qed.
Lemma only_fold_go {A S} (fd : S -> A -> pr S) (f : S -> A -> S) : (forall s a, only (fd s a) (Go (f s a))) -> forall l s, only (foldP fd l s) (Go (fold_left f l s)).
Proof. intros H. induction l as [|a l IH]; intros s; cbn [foldP fold_left]; [apply only_refl|]. eapply only_read; [apply H|]. apply IH. Qed.

Section Presolve.
Variables (g : general) (rows : list svec).
Lemma b_of_only u i : only (b_of_d on g u i) (Go (b_of g u i)).
Proof. apply only_assert, only_refl. Qed.
Lemma type_of_only u i : only (type_of_d on g u i) (Go (type_of g u i)).
Proof. apply only_assert, only_refl. Qed.
Lemma change_b_only u i x : only (change_b_d on g u i x) (Go (change_b g u i x)).
Proof. apply only_assert, only_refl. Qed.
Lemma bound_of_only u j d : only (bound_of_d on g u j d) (Go (bound_of g u j d)).
Proof. apply only_assert, only_assert, only_refl. Qed.
Lemma fixed_value_only u j : only (fixed_value_d on g u j) (Go (fixed_value g u j)).
Proof. apply only_assert. eapply only_read; [apply bound_of_only|]. eapply only_read; [apply bound_of_only|]. apply only_refl. Qed.
Lemma feasible_value_only u j : only (feasible_value_d on g u j) (Go (feasible_value g u j)).
Proof. apply only_assert. eapply only_read; [apply bound_of_only|]. eapply only_read; [apply bound_of_only|]. apply only_refl. Qed.
Lemma update_bound_only u j d x : only (update_bound_d on g u j d x) (Go (update_bound g u j d x)).
Proof. apply only_assert, only_refl. Qed.
Lemma update_activity_bound_only u j d x : only (update_activity_bound_d on g u j d x) (Go (update_activity_bound g u j d x)).
Proof. apply only_assert, only_refl. Qed.
Lemma active_column_only c j : only (active_column_d on g c j) (Go (active_column g c j)).
Proof. apply only_assert, only_refl. Qed.
Lemma active_row_only c i : only (active_row_d on rows c i) (Go (active_row rows c i)).
Proof. apply only_assert, only_assert, only_refl. Qed.
Lemma mark_constraint_only s i : only (mark_constraint_d on s i) (Go (mark_constraint s i)).
Proof. apply only_assert, only_refl. Qed.
Lemma mark_variable_only s j r : only (mark_variable_d on s j r) (Go (mark_variable s j r)).
Proof. apply only_assert, only_refl. Qed.
Lemma queue_variable_only s j : only (queue_variable_d on g s j) (queue_variable g s j).
Proof.
  unfold queue_variable_d, queue_variable. destruct (nth j (c_var (i_c s)) 0%nat) as [|[|k]]; try apply only_refl.
  eapply only_assert_run; [eapply only_read; [apply feasible_value_only|apply only_refl]|]. destruct (qzero _).
  - eapply only_read; [apply feasible_value_only|]. apply only_bind; [apply only_refl|]. intros v. apply mark_variable_only.
  - apply only_assert. eapply only_read; [apply bound_of_only|]. eapply only_read; [apply bound_of_only|]. apply only_bind; [apply only_refl|]. intros v. apply mark_variable_only.
Qed.
Lemma queue_constraint_only s i : only (queue_constraint_d on g s i) (queue_constraint g s i).
Proof.
  unfold queue_constraint_d, queue_constraint. destruct (nth i (c_con (i_c s)) 0%nat) as [|[|k]]; try apply only_refl.
  eapply only_read; [apply b_of_only|]. eapply only_read; [apply type_of_only|]. destruct (empty_feasible _ _); [apply mark_constraint_only|apply only_refl].
Qed.
Lemma shift_activity_only d x s e : only (shift_activity_d on d x s e) (Go (shift_activity d x s e)).
Proof.
  destruct e as [i c]. unfold shift_activity_d, shift_activity. destruct (con_active _ _); [|apply only_refl]. cbv zeta. destruct (side _ _); [|apply only_refl].
  apply only_assert, only_refl.
Qed.
Lemma counters_only s j d : only (update_activity_counters_d on g s j d) (update_activity_counters g s j d).
Proof. unfold update_activity_counters_d, update_activity_counters. eapply only_read; [apply active_column_only|apply only_refl]. Qed.
Lemma apply_change_only s j d c : only (apply_change_d on g s j d c) (apply_change g s j d c).
Proof.
  destruct c as [| |x]; unfold apply_change_d, apply_change; [apply only_refl| |]; unfold after_bound_change_d, after_bound_change; apply only_assert, only_assert;
    (eapply only_read; [apply fixed_value_only|]); cbv zeta.
  - apply counters_only.
  - unfold update_activity_bounds_d, update_activity_bounds. apply only_assert. eapply only_read; [apply active_column_only|]. apply only_fold_go. intros s' e. apply shift_activity_only.
Qed.
Lemma remove_values_only s i : only (remove_constraint_values_d on g rows s i) (remove_constraint_values g rows s i).
Proof.
  unfold remove_constraint_values_d, remove_constraint_values. eapply only_read; [apply active_row_only|].
  apply only_then; [|intros s'; apply only_assert, only_refl]. apply only_fold. intros s' [j c]. apply only_bind; [apply only_refl|]. intros s2. apply only_bind; [apply only_refl|]. intros s3.
  apply queue_variable_only.
Qed.
Lemma fixed_variable_only s j : only (fixed_variable_rule_d on g s j) (fixed_variable_rule g s j).
Proof.
  unfold fixed_variable_rule_d, fixed_variable_rule. apply only_assert. eapply only_assert_run; [eapply only_read; [apply fixed_value_only|apply only_refl]|].
  eapply only_read; [apply fixed_value_only|]. apply only_bind; [apply only_refl|]. intros v. eapply only_read; [apply active_column_only|].
  eapply only_read; [apply (only_fold_go _ (fun u '(i, c) => change_b g u i (- c * v))); intros u [i c]; apply change_b_only|]. cbv zeta.
  eapply only_read; [apply active_column_only|]. apply only_bind; [|intros s'; apply mark_variable_only].
  apply only_fold. intros s' [i c]. apply only_bind; [apply only_refl|]. intros s2. apply only_bind; [apply only_refl|]. intros s3. apply queue_constraint_only.
Qed.
Lemma bound_constraint_only s i : only (bound_constraint_rule_d on g rows s i) (bound_constraint_rule g rows s i).
Proof.
  unfold bound_constraint_rule_d, bound_constraint_rule. apply only_assert. eapply only_assert_run; [eapply only_read; [apply active_row_only|apply only_refl]|].
  eapply only_read; [apply active_row_only|]. apply only_bind; [apply only_refl|]. intros [j c]. apply only_assert. eapply only_read; [apply b_of_only|]. eapply only_read; [apply type_of_only|].
  cbv zeta. apply only_bind; [apply only_refl|]. intros s1. apply only_bind; [apply only_refl|]. intros s2. eapply only_read; [apply mark_constraint_only|]. apply only_bind.
  - apply only_fold. intros s' [d x]. eapply only_read; [apply update_bound_only|]. destruct (update_bound g (i_u s') j d x) as [u ch]. apply apply_change_only.
  - intros s3. eapply only_read; [apply feasible_value_only|]. destruct (feasible_value g (i_u s3) j); [apply queue_variable_only|apply only_refl].
Qed.
Lemma slack_value_only s i j c : only (slack_value_d on g rows s i j c) (Go (slack_value g rows s i j c)).
Proof. unfold slack_value_d, slack_value. eapply only_read; [apply b_of_only|]. eapply only_read; [apply active_row_only|]. apply only_refl. Qed.
Lemma slack_activity_lacks s i f h c : (forall d, f d = h d) -> slack_activity s i f c = slack_activity s i h c.
Proof. intros H. unfold slack_activity. apply foldP_ext. intros s' d _. now rewrite H. Qed.
Lemma slack_only s j : only (slack_rule_d on g rows s j) (slack_rule g rows s j).
Proof.
  unfold slack_rule_d, slack_rule. apply only_assert. eapply only_assert_run; [eapply only_read; [apply active_column_only|apply only_refl]|]. apply only_assert.
  eapply only_assert_run; [eapply only_read; [apply fixed_value_only|apply only_refl]|]. eapply only_read; [apply active_column_only|].
  apply only_bind; [apply only_refl|]. intros [i c]. eapply only_read; [apply type_of_only|]. eapply only_read; [apply bound_of_only|]. eapply only_read; [apply bound_of_only|]. cbv zeta.
  destruct (slack_case _ _ _ _) as [[t' bound]|].
  - eapply only_read with (a := match type_of g (i_u s) i with Equal | Range _ => slack_value g rows s i j c | Greater | Less => Solved bound end).
    { destruct (type_of g (i_u s) i); first [apply slack_value_only|apply only_refl]. }
    apply only_bind; [apply only_refl|]. intros s1. eapply only_read; [apply mark_variable_only|]. apply only_bind.
    { rewrite (slack_activity_lacks _ i _ (fun d => match bound_of g (i_u s) j d with None => true | Some _ => false end)); [apply only_refl|].
      intros [|]; [destruct (bound_of g (i_u s) j Lower)|destruct (bound_of g (i_u s) j Upper)]; reflexivity. }
    intros s2. apply only_bind; [apply only_refl|]. intros s3. apply only_bind; [apply queue_constraint_only|]. intros s4. eapply only_read; [apply change_b_only|]. apply only_refl.
  - eapply only_read; [apply slack_value_only|]. eapply only_read; [apply active_row_only|]. apply only_bind.
    + apply only_fold. intros s' [k a]. apply only_bind; [apply only_refl|]. intros s1. apply only_bind; [apply only_refl|]. intros s2. destruct (Nat.eqb k j); [apply only_refl|apply queue_variable_only].
    + intros s1. eapply only_read; [apply mark_variable_only|]. apply mark_constraint_only.
Qed.
Lemma activity_sum_only u d l : only (activity_sum_d on g u d l) (activity_sum g u d l).
Proof. apply only_fold. intros acc [j c]. eapply only_read; [apply bound_of_only|]. apply only_refl. Qed.
Lemma activity_bound_only s i d : only (activity_bound_d on g rows s i d) (activity_bound g rows s i d).
Proof.
  unfold activity_bound_d, activity_bound. apply only_assert. cbv zeta. destruct (side d (nth i (i_act s) (None, None))); [apply only_refl|].
  eapply only_read; [apply active_row_only|]. apply only_bind; [apply activity_sum_only|]. intros x. apply only_refl.
Qed.
Lemma set_to_bound_only s i d : only (set_to_bound_d on g rows s i d) (set_to_bound g rows s i d).
Proof.
  unfold set_to_bound_d, set_to_bound. eapply only_read; [apply active_row_only|]. apply only_bind.
  - apply only_fold. intros [s' todo] [j c]. cbv zeta. eapply only_read; [apply bound_of_only|]. apply only_bind; [apply only_refl|]. intros x.
    eapply only_read; [apply update_bound_only|]. eapply only_assert_run; [eapply only_read; [apply fixed_value_only|apply only_refl]|].
    destruct (update_bound _ _ _ _ _) as [u ch]. apply only_refl.
  - intros r. apply only_fold. intros s' [j e]. apply counters_only.
Qed.
Lemma constraint_part_only s i d a : only (constraint_part_d on g rows s i d a) (constraint_part g rows s i d a).
Proof.
  unfold constraint_part_d, constraint_part. eapply only_read; [apply b_of_only|]. eapply only_read; [apply type_of_only|]. apply only_bind; [apply only_refl|].
  intros [[|t sh|]|]; try apply only_refl; [eapply only_read; [apply change_b_only|apply only_refl]|]. apply only_bind; [apply set_to_bound_only|]. intros s'. apply only_refl.
Qed.
Lemma usable_side_only u i d : only (usable_side_d on g u i d) (Go (usable_side g u i d)).
Proof. unfold usable_side_d, usable_side. eapply only_read; [apply b_of_only|]. eapply only_read; [apply type_of_only|]. destruct (type_of g u i), d; apply only_refl. Qed.
Lemma variable_part_only s i rhs a d made : only (variable_part_d on g rows s i rhs a d made) (variable_part g rows s i rhs a d made).
Proof.
  unfold variable_part_d, variable_part. eapply only_read; [apply active_row_only|]. apply only_fold. intros [s' made'] [j c]. eapply only_read; [apply bound_of_only|].
  apply only_bind; [apply only_refl|]. intros x. cbv zeta. eapply only_read; [apply update_activity_bound_only|]. destruct (update_activity_bound _ _ _ _ _) as [u ch]. cbn [fst snd].
  apply only_bind; [apply apply_change_only|]. intros s2. apply only_refl.
Qed.
Lemma propagate_row_only s i d : only (propagate_row_d on g rows s i d) (propagate_row g rows s i d).
Proof.
  unfold propagate_row_d, propagate_row. apply only_assert. apply only_bind; [apply activity_bound_only|]. intros [s1 a]. apply only_bind; [apply constraint_part_only|].
  intros [s2 [[rm vs] made]]. apply only_bind.
  - destruct vs; [|apply only_refl]. eapply only_read; [apply usable_side_only|]. destruct (usable_side g (i_u s2) i d); [apply variable_part_only|apply only_refl].
  - intros [s3 made3]. destruct rm; [|apply only_refl]. apply only_bind; [apply remove_values_only|]. intros s4. eapply only_read; [apply mark_constraint_only|]. apply only_refl.
Qed.
Lemma known_activity_only u d l : only (known_activity_d on g u d l) (Go (known_activity g u d l)).
Proof.
  unfold known_activity_d, known_activity. apply (only_fold_go _ (fun acc '(j, c) => match bound_of g u j (bmul d c) with Some x => acc + c * x | None => acc end)).
  intros acc [j c]. eapply only_read; [apply bound_of_only|]. apply only_refl.
Qed.
Lemma missing_entry_only u d : forall l, only (missing_entry_d on g u d l) (Go (missing_entry g u d l)).
Proof.
  induction l as [|[j c] l IH]; [apply only_refl|]. cbn [missing_entry_d]. eapply only_read; [apply bound_of_only|].
  unfold missing_entry. cbn [find]. destruct (bound_of g u j (bmul d c)); cbn [is_some]; [exact IH|apply only_refl].
Qed.
Lemma bound_one_only s i d : only (bound_one_d on g rows s i d) (bound_one g rows s i d).
Proof.
  unfold bound_one_d, bound_one. apply only_assert. eapply only_read; [apply usable_side_only|]. destruct (usable_side g (i_u s) i d); [|apply only_refl].
  eapply only_read; [apply active_row_only|]. eapply only_read; [apply known_activity_only|]. eapply only_read; [apply missing_entry_only|]. cbv zeta.
  apply only_bind; [apply only_refl|]. intros [j c]. eapply only_read; [apply update_activity_bound_only|]. destruct (update_activity_bound _ _ _ _ _) as [u ch]. cbn [fst snd].
  apply only_bind; [apply apply_change_only|]. intros s2. apply only_refl.
Qed.
Lemma count_missing_only u d : forall l, exists k, only (count_missing_d on g u d l) (Go k).
Proof.
  induction l as [|[j c] l [k IH]]; [exists 0%nat; apply only_refl|]. cbn [count_missing_d]. eexists. eapply only_read; [apply bound_of_only|]. eapply only_read; [exact IH|]. apply only_refl.
Qed.
Lemma propagation_only s i d : only (domain_propagation_rule_d on g rows s i d) (domain_propagation_rule g rows s i d).
Proof.
  unfold domain_propagation_rule_d, domain_propagation_rule. cbv zeta. eapply only_read; [apply active_row_only|]. destruct (count_missing_only (i_u s) d (active_row rows (i_c s) i)) as [k K].
  eapply only_read; [exact K|]. apply only_assert. destruct (side d _) as [|[|c]]; [apply propagate_row_only|apply bound_one_only|apply only_refl].
Qed.
Lemma step_only s : only (presolve_step_d on g rows s) (presolve_step g rows s).
Proof.
  unfold presolve_step_d, presolve_step. set (sub := match q_sub (i_q s) with [] => _ | _ => _ end). destruct (fst sub) as [j|].
  - apply only_bind; [apply fixed_variable_only|]. intros s'. apply only_refl.
  - cbv zeta. destruct (fst (drain _ (q_bound _))) as [i|].
    + apply only_bind; [apply bound_constraint_only|]. intros s'. apply only_refl.
    + destruct (fst (drain _ (q_slack _))) as [j|].
      * apply only_bind; [apply slack_only|]. intros s'. apply only_refl.
      * destruct (fst (drain _ (q_act _))) as [[i d]|]; [|apply only_refl]. apply only_assert, propagation_only.
Qed.
Lemma loop_only : forall fuel stale s, only (presolve_loop_d on g rows fuel stale s) (presolve_loop g rows fuel stale s).
Proof.
  induction fuel as [|fuel IH]; intros stale s; cbn [presolve_loop presolve_loop_d]; (destruct (queues_empty (i_q s)); [apply only_refl|]); (apply only_bind; [apply only_refl|]); intros r;
    (destruct (Nat.leb r stale); [apply only_refl|]); [apply only_refl|]. apply only_bind; [apply step_only|]. intros [s' ch]. cbn [fst snd]. destruct ch; apply IH.
Qed.
Lemma index_new_only : only (index_new_d on g rows) (index_new g rows).
Proof.
  unfold index_new_d, index_new. cbv zeta. apply only_bind; [|intros u; apply only_refl]. unfold updates_new_d, updates_new. apply only_bind; [|intros u; apply only_refl].
  apply only_fold. intros u j. apply only_assert, only_refl.
Qed.
End Presolve.

Lemma presolve_only fuel g : only (presolve_d on fuel g) (presolve fuel g).
Proof.
  unfold presolve_d, presolve, presolve_changes_d, presolve_changes. apply only_bind.
  - apply only_assert. apply only_bind; [apply only_refl|]. intros rows. apply only_bind; [apply index_new_only|]. intros s. apply only_bind; [apply loop_only|]. intros s'. apply only_refl.
  - intros u. apply only_bind; [apply only_refl|]. intros g1.
    assert (X : only (remove_rows_and_columns_d on g1 (u_gone u) (map fst (u_removed u))) (lift (remove_rows_and_columns g1 (u_gone u) (map fst (u_removed u))))).
    { unfold remove_rows_and_columns_d. cbv zeta. apply only_assert. destruct (lift (remove_rows_and_columns g1 (u_gone u) (map fst (u_removed u)))); cbn [pbind]; try apply only_refl.
      now apply only_assert, only_assert, only_assert, only_refl. }
    apply only_bind; [exact X|]. intros g2. apply only_assert. apply only_refl.
Qed.
End Only.

Lemma presolve_release fuel g : presolve_d no_sites fuel g = presolve fuel g.
Proof. destruct (presolve_only no_sites fuel g) as [E|[_ (k & K)]]; [exact E|discriminate]. Qed.
Lemma presolve_debug_or fuel g on : presolve_d on fuel g = PPanic \/ presolve_d on fuel g = presolve fuel g.
Proof. destruct (presolve_only on fuel g) as [E|[E _]]; auto. Qed.
