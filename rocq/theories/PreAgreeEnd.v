(** * Presolving: what comes out of any run is a program, and a debug build finds nothing to complain about in it *)
From Verif Require Import SpecGeneral SparseP LinAlg KindP InitP PermP KeptP CarryP RangesP.
From Verif Require Export PreAgreeLoop PreSafe.
Local Open Scope Qc_scope.

(** ** Bounds only get tighter, in every run *)
Section Snug.
Variables (g : general) (rows : list svec).
Definition snug (s : pindex) : Prop := apart (i_u s) /\ tight g (i_u s).
Local Notation G := snug.
Lemma snug_same s s' : u_bounds (i_u s') = u_bounds (i_u s) -> u_acts (i_u s') = u_acts (i_u s) -> snug s -> snug s'.
Proof. intros E1 E2 [A T]. split; [intros j d; rewrite E1, E2; apply A|]. intros j d a v. unfold bound_of, pbound. rewrite E1, E2. apply (T j d a v). Qed.
Ltac same := eapply snug_same; [| |eassumption]; reflexivity.

Lemma snug_dec_var s j : G s -> gives (dec_var s j) G.
Proof. intros H. apply gives_any. intros c. apply gives_go. same. Qed.
Lemma snug_dec_con s i : G s -> gives (dec_con s i) G.
Proof. intros H. apply gives_any. intros c. apply gives_go. same. Qed.
Lemma snug_dec_act s i d : G s -> gives (dec_act s i d) G.
Proof. intros H. unfold dec_act. destruct (side d _); [apply gives_panic|]. apply gives_go. same. Qed.
Lemma snug_queue_variable s j : G s -> gives (queue_variable g s j) G.
Proof.
  intros H. unfold queue_variable. destruct (nth j _ _) as [|[|k]].
  - destruct (qzero _).
    + apply gives_any. intros v. apply gives_go. same.
    + apply gives_any. intros v. apply gives_go. same.
  - apply gives_go. destruct (qzero _); [same|assumption].
  - now apply gives_go.
Qed.
Lemma snug_queue_constraint s i : G s -> gives (queue_constraint g s i) G.
Proof.
  intros H. unfold queue_constraint. destruct (nth i _ _) as [|[|k]].
  - destruct (empty_feasible _ _); [|apply gives_stop]. apply gives_go. same.
  - apply gives_go. same.
  - now apply gives_go.
Qed.
Lemma updates_push s e : (i_u (push_act s e)) = (i_u s).
Proof. unfold push_act. now destruct (queued _ _). Qed.
Lemma snug_push s e : G s -> G (push_act s e).
Proof. unfold snug. now rewrite updates_push. Qed.
Lemma updates_shifts d x es s : i_u (fold_left (shift_activity d x) es s) = i_u s.
Proof.
  revert s. induction es as [|[i c] es IH]; intros s; [reflexivity|]. cbn [fold_left]. rewrite IH. unfold shift_activity.
  destruct (con_active _ _); [|reflexivity]. destruct (side _ _); [|reflexivity]. now rewrite updates_push.
Qed.
Lemma snug_shifts d x es s : G s -> G (fold_left (shift_activity d x) es s).
Proof. unfold snug. now rewrite updates_shifts. Qed.
Lemma snug_counters s j d : G s -> gives (update_activity_counters g s j d) G.
Proof.
  intros H. apply gives_fold; [assumption|]. intros s' [i c] H'. unfold lower_counter. eapply gives_bind; [apply snug_dec_act; exact H'|]. intros s2 H2. apply gives_go.
  destruct (Nat.leb _ _); [now apply snug_push|assumption].
Qed.
Lemma snug_apply s j d c : G s -> gives (apply_change g s j d c) G.
Proof.
  intros H. assert (K : forall ch, gives (after_bound_change g s j d ch) G).
  { intros ch. unfold after_bound_change. set (s' := match fixed_value g (i_u s) j with Some _ => _ | None => _ end).
    assert (H' : G s') by (unfold s'; destruct (fixed_value _ _ _); [destruct (var_active _ _); [same|assumption]|assumption]).
    destruct ch; [|now apply snug_counters]. apply gives_go. now apply snug_shifts. }
  destruct c; [now apply gives_go|apply K|apply K].
Qed.
Lemma snug_drop s i : G s -> gives (remove_constraint_values g rows s i) G.
Proof.
  intros H. apply gives_fold; [assumption|]. intros s' [j c] H'. eapply gives_bind; [now apply snug_dec_con|]. intros s2 H2.
  eapply gives_bind; [now apply snug_dec_var|]. intros s3 H3. now apply snug_queue_variable.
Qed.
Lemma kept_changes {B} (f : updates -> B -> updates) es u : (forall u e, u_bounds (f u e) = u_bounds u /\ u_acts (f u e) = u_acts u) -> u_bounds (fold_left f es u) = u_bounds u /\ u_acts (fold_left f es u) = u_acts u.
Proof. intros H. revert u. induction es as [|e es IH]; intros u; [now split|]. cbn [fold_left]. destruct (IH (f u e)) as [E1 E2]. rewrite E1, E2. apply H. Qed.
Lemma snug_fixed_variable s j : G s -> gives (fixed_variable_rule g s j) G.
Proof.
  intros H. unfold fixed_variable_rule. apply gives_any. intros v. eapply gives_bind with (Q := G); [|intros s2 H2; apply gives_go; same].
  apply gives_fold.
  - eapply (snug_same s); [| |exact H]; cbn; apply (kept_changes (fun u '(i, c) => change_b g u i (- c * v))); now intros u [i c].
  - intros s' [i c] H'. eapply gives_bind; [now apply snug_dec_var|]. intros s2 H2. eapply gives_bind; [now apply snug_dec_con|]. intros s3 H3. now apply snug_queue_constraint.
Qed.
Lemma snug_update s j d x : G s -> G (with_u s (fst (update_bound g (i_u s) j d x))).
Proof.
  intros [A T]. destruct (update_bound g (i_u s) j d x) as [u ch] eqn:E. destruct (update_bound_rebound g _ _ _ _ _ _ A E) as [RB _]. split; [apply (rb_apart _ _ _ _ _ _ RB)|].
  now apply (rebound_tight g (i_u s) u j d x).
Qed.
Lemma snug_update_act s j d x : G s -> G (with_u s (fst (update_activity_bound g (i_u s) j d x))).
Proof.
  intros [A T]. destruct (update_activity_bound g (i_u s) j d x) as [u ch] eqn:E. destruct (update_activity_rebound g _ _ _ _ _ _ A E) as [RB _]. split; [apply (rb_apart _ _ _ _ _ _ RB)|].
  now apply (rebound_tight g (i_u s) u j d x).
Qed.
Lemma snug_certain s j d : G s -> G (with_u s (match u_acts (i_u s) j d with Some y => insert_bound j d (remove_act j d (i_u s)) y | None => i_u s end)).
Proof.
  intros [A T]. destruct (u_acts (i_u s) j d) as [y|] eqn:Y; [|now split]. split.
  - intros k e. cbn. unfold put2. fold (is_at k e j d). destruct (is_at_spec k e j d) as [[-> ->]|N]; [reflexivity|apply A].
  - intros k e a v. unfold bound_of, pbound. cbn. unfold put2. fold (is_at k e j d). destruct (is_at_spec k e j d) as [[-> ->]|N].
    + intros X1 X2. injection X1 as <-. injection X2 as <-. apply bound_holds_refl.
    + apply (T k e a v).
Qed.
Lemma snug_bound_constraint s i : G s -> gives (bound_constraint_rule g rows s i) G.
Proof.
  intros H. unfold bound_constraint_rule. apply gives_any. intros [j c]. eapply gives_bind; [now apply snug_dec_var|]. intros s2 H2.
  eapply gives_bind; [now apply snug_dec_con|]. intros s3 H3. eapply gives_bind with (Q := G).
  - apply gives_fold; [same|]. intros s' [d x] H'. pose proof (snug_update s' j d x H') as K. destruct (update_bound g (i_u s') j d x) as [u ch] eqn:E. apply snug_apply. exact K.
  - intros s4 H4. destruct (feasible_value _ _ _); [now apply snug_queue_variable|apply gives_stop].
Qed.
Lemma snug_set s i d : G s -> gives (set_to_bound g rows s i d) G.
Proof.
  intros H. unfold set_to_bound. eapply gives_bind with (Q := fun r => G (fst r)).
  - apply gives_fold; [assumption|]. intros [s' todo] [j c] H'. apply gives_any. intros x.
    cbn [fst] in H'. pose proof (snug_certain s' j (bmul d c) H') as K. set (u := match u_acts (i_u s') j (bmul d c) with Some _ => _ | None => _ end) in *.
    apply (snug_update _ j (bnot (bmul d c)) x) in K. cbn [with_u i_u] in K. destruct (update_bound g u j (bnot (bmul d c)) x) as [u' ch] eqn:E.
    apply gives_go. cbn [fst]. exact K.
  - intros r H'. apply gives_fold; [assumption|]. intros s2 [j d'] H2. now apply snug_counters.
Qed.
Lemma snug_variable_part s i rhs a d made : G s -> gives (variable_part g rows s i rhs a d made) (fun r => G (fst r)).
Proof.
  intros H. apply gives_fold; [assumption|]. intros [s' made'] [j c] H'. apply gives_any. intros x. cbv zeta. cbn [fst] in H'. match goal with |- context [update_activity_bound ?a (i_u ?b) ?c ?d ?e] => pose proof (snug_update_act b c d e H') as K; destruct (update_activity_bound a (i_u b) c d e) as [u ch] eqn:E end.
  eapply gives_bind; [apply snug_apply|intros s2 H2; apply gives_go; exact H2]. exact K.
Qed.
Lemma snug_propagation s i d : G s -> gives (domain_propagation_rule g rows s i d) (fun r => G (fst r)).
Proof.
  intros H. unfold domain_propagation_rule. destruct (side _ _) as [|[|k]]; [| |apply gives_panic].
  - unfold propagate_row. eapply gives_bind with (Q := fun r => G (fst r)).
    { unfold activity_bound. destruct (side _ _); [now apply gives_go|]. apply gives_any. intros x. apply gives_go. cbn. same. }
    intros [s2 a] H2. cbn [fst] in H2. eapply gives_bind with (Q := fun r => G (fst r)).
    { unfold constraint_part. apply gives_any. intros [[|t sh|]|]; try (apply gives_go; cbn; first [assumption|same]).
      eapply gives_bind; [now apply snug_set|]. intros s3 H3. now apply gives_go. }
    intros [s3 [[rm vs] made]] H3. cbn [fst] in H3. eapply gives_bind with (Q := fun r => G (fst r)).
    { destruct vs; [|now apply gives_go]. destruct (usable_side _ _ _); [now apply snug_variable_part|now apply gives_go]. }
    intros [s4 made4] H4. cbn [fst] in H4. destruct rm; [|now apply gives_go]. eapply gives_bind; [now apply snug_drop|]. intros s5 H5. apply gives_go. cbn. same.
  - unfold bound_one. destruct (usable_side _ _ _); [|now apply gives_go]. apply gives_any. intros [j c]. cbv zeta. match goal with |- context [update_activity_bound ?a (i_u ?b) ?c ?d ?e] => pose proof (snug_update_act b c d e H) as K; destruct (update_activity_bound a (i_u b) c d e) as [u ch] eqn:E end.
    eapply gives_bind; [apply snug_apply|intros s2 H2; apply gives_go; exact H2]. exact K.
Qed.

Lemma snug_slack s j : G s -> gives (slack_rule g rows s j) G.
Proof.
  intros H. unfold slack_rule. apply gives_any. intros [i c]. destruct (slack_case _ _ _ _) as [[t' bound]|].
  - eapply gives_bind; [now apply snug_dec_var|]. intros s2 H2. eapply gives_bind with (Q := G).
    { apply gives_fold; [same|]. intros s' d H'. destruct (bound_of _ _ _ _); [now apply gives_go|]. eapply gives_bind; [now apply snug_dec_act|]. intros s3 H3. apply gives_go.
      destruct (Nat.leb _ _); [now apply snug_push|assumption]. }
    intros s3 H3. eapply gives_bind; [now apply snug_dec_con|]. intros s4 H4. eapply gives_bind; [now apply snug_queue_constraint|]. intros s5 H5. apply gives_go. same.
  - eapply gives_bind with (Q := G).
    { apply gives_fold; [assumption|]. intros s' [k a] H'. eapply gives_bind; [now apply snug_dec_con|]. intros s2 H2.
      eapply gives_bind; [now apply snug_dec_var|]. intros s3 H3. destruct (Nat.eqb k j); [now apply gives_go|now apply snug_queue_variable]. }
    intros s2 H2. apply gives_go. same.
Qed.
Lemma snug_step s : G s -> gives (presolve_step g rows s) (fun r => G (fst r)).
Proof.
  intros H. unfold presolve_step. assert (K : forall q, G (with_q s q)) by (intros q; same).
  set (sub := match q_sub (i_q s) with [] => _ | _ => _ end). destruct (fst sub) as [j|].
  - eapply gives_bind; [apply snug_fixed_variable, K|]. intros s2 H2. now apply gives_go.
  - destruct (fst (drain _ (q_bound _))) as [i|].
    + eapply gives_bind; [apply snug_bound_constraint, K|]. intros s2 H2. now apply gives_go.
    + destruct (fst (drain _ (q_slack _))) as [j|].
      * eapply gives_bind; [apply snug_slack, K|]. intros s2 H2. now apply gives_go.
      * destruct (fst (drain _ (q_act _))) as [[i d]|]; [apply snug_propagation, K|apply gives_go, K].
Qed.
End Snug.
