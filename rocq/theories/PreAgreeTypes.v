(** * Presolving programs with inequalities only *)
From Verif Require Import SpecGeneral SparseP LinAlg KindP InitP PermP KeptP CarryP RangesP StandardR.
From Verif Require Export PreAgreeWhole.
Local Open Scope Qc_scope.

(** ** Constraints stay inequalities, in every run *)
Section Signed.
Variables (g : general) (rows : list svec).
Hypothesis in_rows : forall j i c, In (i, c) (nth j (g_cols g) []) -> (i < g_rows g)%nat.
Definition inequality (t : rel) : Prop := t = Less \/ t = Greater.
Definition signed (s : pindex) : Prop := forall i, (i < g_rows g)%nat -> inequality (type_of g (i_u s) i).
Local Notation G := signed.
Lemma signed_same s s' : u_types (i_u s') = u_types (i_u s) -> signed s -> signed s'.
Proof. intros E H i L. unfold type_of. rewrite E. now apply H. Qed.
Ltac same := eapply signed_same; [|eassumption]; reflexivity.

Lemma signed_dec_var s j : G s -> gives (dec_var s j) G.
Proof. intros H. apply gives_any. intros c. apply gives_go. same. Qed.
Lemma signed_dec_con s i : G s -> gives (dec_con s i) G.
Proof. intros H. apply gives_any. intros c. apply gives_go. same. Qed.
Lemma signed_dec_act s i d : G s -> gives (dec_act s i d) G.
Proof. intros H. unfold dec_act. destruct (side d _); [apply gives_panic|]. apply gives_go. same. Qed.
Lemma signed_queue_variable s j : G s -> gives (queue_variable g s j) G.
Proof.
  intros H. unfold queue_variable. destruct (nth j _ _) as [|[|k]].
  - destruct (qzero _).
    + apply gives_any. intros v. apply gives_go. same.
    + apply gives_any. intros v. apply gives_go. same.
  - apply gives_go. destruct (qzero _); [same|assumption].
  - now apply gives_go.
Qed.
Lemma signed_queue_constraint s i : G s -> gives (queue_constraint g s i) G.
Proof.
  intros H. unfold queue_constraint. destruct (nth i _ _) as [|[|k]].
  - destruct (empty_feasible _ _); [|apply gives_stop]. apply gives_go. same.
  - apply gives_go. same.
  - now apply gives_go.
Qed.
Lemma signed_push s e : G s -> G (push_act s e).
Proof. unfold signed. now rewrite updates_push. Qed.
Lemma signed_shifts d x es s : G s -> G (fold_left (shift_activity d x) es s).
Proof. unfold signed. now rewrite updates_shifts. Qed.
Lemma signed_counters s j d : G s -> gives (update_activity_counters g s j d) G.
Proof.
  intros H. apply gives_fold; [assumption|]. intros s' [i c] H'. unfold lower_counter. eapply gives_bind; [apply signed_dec_act; exact H'|]. intros s2 H2. apply gives_go.
  destruct (Nat.leb _ _); [now apply signed_push|assumption].
Qed.
Lemma signed_apply s j d c : G s -> gives (apply_change g s j d c) G.
Proof.
  intros H. assert (K : forall ch, gives (after_bound_change g s j d ch) G).
  { intros ch. unfold after_bound_change. set (s' := match fixed_value g (i_u s) j with Some _ => _ | None => _ end).
    assert (H' : G s') by (unfold s'; destruct (fixed_value _ _ _); [destruct (var_active _ _); [same|assumption]|assumption]).
    destruct ch; [|now apply signed_counters]. apply gives_go. now apply signed_shifts. }
  destruct c; [now apply gives_go|apply K|apply K].
Qed.
Lemma signed_drop s i : G s -> gives (remove_constraint_values g rows s i) G.
Proof.
  intros H. apply gives_fold; [assumption|]. intros s' [j c] H'. eapply gives_bind; [now apply signed_dec_con|]. intros s2 H2.
  eapply gives_bind; [now apply signed_dec_var|]. intros s3 H3. now apply signed_queue_variable.
Qed.
Lemma types_changes {B} (f : updates -> B -> updates) es u : (forall u e, u_types (f u e) = u_types u) -> u_types (fold_left f es u) = u_types u.
Proof. intros H. revert u. induction es as [|e es IH]; intros u; [reflexivity|]. cbn [fold_left]. rewrite IH. apply H. Qed.
Lemma signed_fixed_variable s j : G s -> gives (fixed_variable_rule g s j) G.
Proof.
  intros H. unfold fixed_variable_rule. apply gives_any. intros v. eapply gives_bind with (Q := G); [|intros s2 H2; apply gives_go; same].
  apply gives_fold.
  - eapply (signed_same s); [|exact H]; cbn; apply (types_changes (fun u '(i, c) => change_b g u i (- c * v))); now intros u [i c].
  - intros s' [i c] H'. eapply gives_bind; [now apply signed_dec_var|]. intros s2 H2. eapply gives_bind; [now apply signed_dec_con|]. intros s3 H3. now apply signed_queue_constraint.
Qed.
Lemma types_compare u ins d a b : (forall u x, u_types (ins u x) = u_types u) -> u_types (fst (compare_update u ins d a b)) = u_types u.
Proof. intros H. unfold compare_update. destruct (match d with Lower => _ | Upper => _ end); [apply H|reflexivity]. Qed.
Lemma signed_update s j d x : G s -> G (with_u s (fst (update_bound g (i_u s) j d x))).
Proof.
  intros H. eapply signed_same; [|exact H]. cbn. unfold update_bound. destruct (u_bounds (i_u s) j d); [now apply types_compare|]. destruct (u_acts (i_u s) j d); [now rewrite types_compare|].
  destruct (vbound _ _); [now apply types_compare|reflexivity].
Qed.
Lemma signed_update_act s j d x : G s -> G (with_u s (fst (update_activity_bound g (i_u s) j d x))).
Proof.
  intros H. eapply signed_same; [|exact H]. cbn. unfold update_activity_bound. destruct (u_acts (i_u s) j d); [now apply types_compare|]. destruct (u_bounds (i_u s) j d); [now rewrite types_compare|].
  destruct (vbound _ _); [now apply types_compare|reflexivity].
Qed.
Lemma signed_certain s j d : G s -> G (with_u s (match u_acts (i_u s) j d with Some y => insert_bound j d (remove_act j d (i_u s)) y | None => i_u s end)).
Proof. intros H. eapply signed_same; [|exact H]. cbn. now destruct (u_acts (i_u s) j d). Qed.
Lemma signed_bound_constraint s i : G s -> gives (bound_constraint_rule g rows s i) G.
Proof.
  intros H. unfold bound_constraint_rule. apply gives_any. intros [j c]. eapply gives_bind; [now apply signed_dec_var|]. intros s2 H2.
  eapply gives_bind; [now apply signed_dec_con|]. intros s3 H3. eapply gives_bind with (Q := G).
  - apply gives_fold; [same|]. intros s' [d x] H'. pose proof (signed_update s' j d x H') as K. destruct (update_bound g (i_u s') j d x) as [u ch] eqn:E. apply signed_apply. exact K.
  - intros s4 H4. destruct (feasible_value _ _ _); [now apply signed_queue_variable|apply gives_stop].
Qed.
Lemma signed_set s i d : G s -> gives (set_to_bound g rows s i d) G.
Proof.
  intros H. unfold set_to_bound. eapply gives_bind with (Q := fun r => G (fst r)).
  - apply gives_fold; [assumption|]. intros [s' todo] [j c] H'. apply gives_any. intros x.
    cbn [fst] in H'. pose proof (signed_certain s' j (bmul d c) H') as K. set (u := match u_acts (i_u s') j (bmul d c) with Some _ => _ | None => _ end) in *.
    apply (signed_update _ j (bnot (bmul d c)) x) in K. cbn [with_u i_u] in K. destruct (update_bound g u j (bnot (bmul d c)) x) as [u' ch] eqn:E.
    apply gives_go. cbn [fst]. exact K.
  - intros r H'. apply gives_fold; [assumption|]. intros s2 [j d'] H2. now apply signed_counters.
Qed.
Lemma signed_variable_part s i rhs a d made : G s -> gives (variable_part g rows s i rhs a d made) (fun r => G (fst r)).
Proof.
  intros H. apply gives_fold; [assumption|]. intros [s' made'] [j c] H'. apply gives_any. intros x. cbv zeta. cbn [fst] in H'. match goal with |- context [update_activity_bound ?a (i_u ?b) ?c ?d ?e] => pose proof (signed_update_act b c d e H') as K; destruct (update_activity_bound a (i_u b) c d e) as [u ch] eqn:E end.
  eapply gives_bind; [apply signed_apply|intros s2 H2; apply gives_go; exact H2]. exact K.
Qed.
Lemma signed_propagation s i d : (i < g_rows g)%nat -> G s -> gives (domain_propagation_rule g rows s i d) (fun r => G (fst r)).
Proof.
  intros Li H. unfold domain_propagation_rule. destruct (side _ _) as [|[|k]]; [| |apply gives_panic].
  - unfold propagate_row. eapply gives_bind with (Q := fun r => G (fst r)).
    { unfold activity_bound. destruct (side _ _); [now apply gives_go|]. apply gives_any. intros x. apply gives_go. cbn. same. }
    intros [s2 a] H2. cbn [fst] in H2. eapply gives_bind with (Q := fun r => G (fst r)).
    { unfold constraint_part. pose proof (H2 i Li) as Ti. destruct (type_of g (i_u s2) i) as [|r| |] eqn:TY; destruct Ti as [Ti|Ti]; try discriminate; clear Ti;
      (unfold decide; destruct (b_of g (i_u s2) i ?= a), d; cbn [pbind]; try (apply gives_go; cbn; assumption); try apply gives_stop;
      eapply gives_bind; [now apply signed_set|]; intros s3 H3; now apply gives_go). }
    intros [s3 [[rm vs] made]] H3. cbn [fst] in H3. eapply gives_bind with (Q := fun r => G (fst r)).
    { destruct vs; [|now apply gives_go]. destruct (usable_side _ _ _); [now apply signed_variable_part|now apply gives_go]. }
    intros [s4 made4] H4. cbn [fst] in H4. destruct rm; [|now apply gives_go]. eapply gives_bind; [now apply signed_drop|]. intros s5 H5. apply gives_go. cbn. same.
  - unfold bound_one. destruct (usable_side _ _ _); [|now apply gives_go]. apply gives_any. intros [j c]. cbv zeta. match goal with |- context [update_activity_bound ?a (i_u ?b) ?c ?d ?e] => pose proof (signed_update_act b c d e H) as K; destruct (update_activity_bound a (i_u b) c d e) as [u ch] eqn:E end.
    eapply gives_bind; [apply signed_apply|intros s2 H2; apply gives_go; exact H2]. exact K.
Qed.

Lemma slack_case_signed t l h c t' b : inequality t -> slack_case t l h c = Some (t', b) -> inequality t'.
Proof.
  unfold inequality, slack_case. intros [->| ->]; destruct (qneg c), l, h; intros E; try discriminate; injection E as <- <-; auto.
Qed.
Lemma signed_slack s j : G s -> gives (slack_rule g rows s j) G.
Proof.
  intros H. unfold slack_rule. destruct (hd_error (active_column g (i_c s) j)) as [[i c]|] eqn:HD; cbn [unwrap pbind]; [|apply gives_panic].
  assert (Li : (i < g_rows g)%nat).
  { assert (X : In (i, c) (active_column g (i_c s) j)) by (destruct (active_column g (i_c s) j); [discriminate|]; injection HD as ->; now left). apply active_column_In in X. now apply (in_rows j i c). }
  destruct (slack_case _ _ _ _) as [[t' bound]|] eqn:SC.
  - apply slack_case_signed in SC; [|now apply H]. eapply gives_bind; [now apply signed_dec_var|]. intros s2 H2. eapply gives_bind with (Q := G).
    { apply gives_fold; [same|]. intros s' d H'. destruct (bound_of _ _ _ _); [now apply gives_go|]. eapply gives_bind; [now apply signed_dec_act|]. intros s3 H3. apply gives_go.
      destruct (Nat.leb _ _); [now apply signed_push|assumption]. }
    intros s3 H3. eapply gives_bind; [now apply signed_dec_con|]. intros s4 H4. eapply gives_bind; [now apply signed_queue_constraint|]. intros s5 H5. apply gives_go.
    intros k Lk. specialize (H5 k Lk). unfold type_of in *. cbn. unfold put. destruct (Nat.eqb k i); [exact SC|exact H5].
  - eapply gives_bind with (Q := G).
    { apply gives_fold; [assumption|]. intros s' [k a] H'. eapply gives_bind; [now apply signed_dec_con|]. intros s2 H2.
      eapply gives_bind; [now apply signed_dec_var|]. intros s3 H3. destruct (Nat.eqb k j); [now apply gives_go|now apply signed_queue_variable]. }
    intros s2 H2. apply gives_go. same.
Qed.
Lemma signed_step s : calm g rows s -> G s -> gives (presolve_step g rows s) (fun r => G (fst r)).
Proof.
  intros (B & _) H. unfold presolve_step. assert (K : forall q, G (with_q s q)) by (intros q; same).
  set (sub := match q_sub (i_q s) with [] => _ | _ => _ end). destruct (fst sub) as [j|].
  - eapply gives_bind; [apply signed_fixed_variable, K|]. intros s2 H2. now apply gives_go.
  - destruct (fst (drain _ (q_bound _))) as [i|].
    + eapply gives_bind; [apply signed_bound_constraint, K|]. intros s2 H2. now apply gives_go.
    + destruct (fst (drain _ (q_slack _))) as [j|].
      * eapply gives_bind; [apply signed_slack, K|]. intros s2 H2. now apply gives_go.
      * pose proof (drain_spec (fun e : nat * bdir => con_active (i_c s) (fst e)) (q_act (i_q s))) as DA.
        destruct (drain (fun e : nat * bdir => con_active (i_c s) (fst e)) (q_act (i_q s))) as [[[i d]|] ta]; cbn [fst snd]; [|apply gives_go, K].
        destruct DA as [Oi _]. apply signed_propagation; [|apply K]. apply (on_row_cc s) in Oi. now apply (bk_cc _ _ _ _ _ B).
Qed.
End Signed.

(** ** Such programs do not get stuck *)
Definition inequalities (g : general) : Prop := forall i, (i < g_rows g)%nat -> inequality (row_type g i).
Section Never.
Variable g : general.
Hypothesis G : general_ok g.
Hypothesis F : fresh g.
Hypothesis Q : inequalities g.
Lemma rows_of_columns : forall j i c, In (i, c) (nth j (g_cols g) []) -> (i < g_rows g)%nat.
Proof using G.
  intros j i c H. destruct (Nat.lt_ge_cases j (nr_vars g)) as [L|L].
  - pose proof (gok_sorted _ G j L) as W. now apply (wfs_In_lt _ _ _ _ W) in H.
  - rewrite nth_overflow in H by (rewrite (gok_cols _ G); exact L). contradiction.
Qed.
Lemma index_new_types rows s : index_new g rows = Go s -> u_types (i_u s) = u_types no_updates.
Proof using.
  unfold index_new, updates_new. intros E. apply pbind_go in E. destruct E as (u & E & X). injection X as <-. cbn [i_u]. apply pbind_go in E. destruct E as (u1 & E1 & E2).
  assert (H1 : u_types u1 = u_types no_updates).
  { refine (fold_same _ u_types _ _ _ _ E1). intros u0 j u2. unfold empty_column. intros X. apply pbind_go in X. destruct X as ([v c] & _ & X). now injection X as <-. }
  rewrite <- H1. refine (fold_same _ u_types _ _ _ _ E2). intros u0 j u2. unfold empty_row. destruct (empty_feasible _ _); intros X; [now injection X as <-|discriminate].
Qed.
Lemma leads_signed rows : matrix_ok g rows -> forall s s', leads g rows s s' -> calm g rows s -> signed g s -> calm g rows s' /\ signed g s'.
Proof using G.
  intros M s s' L. induction L as [s|s s1 s2 ch E L IH]; intros C S; [now split|]. apply IH.
  - destruct (presolve_step_agree no_sites g rows M eq_refl s C) as [_ P]. rewrite E in P. exact P.
  - exact (signed_step g rows rows_of_columns s C S _ E).
Qed.
Lemma never_stuck : ~ gets_stuck g.
Proof using G F Q.
  intros (rows & s & s' & E & I & L & K). destruct (matrix_from g G) as (rows' & E' & M & RV). rewrite E in E'. injection E' as <-.
  destruct (index_new_calm no_sites g rows M G) as [_ P]. rewrite I in P. cbn [pspec] in P.
  destruct (leads_signed rows M s s' L P) as [C S].
  - intros i Li. unfold type_of. rewrite (index_new_types rows s I). cbn. now apply Q.
  - destruct K as (i & d & NA & C0 & _ & (r & T) & _). assert (Li : (i < g_rows g)%nat).
    { destruct C as (B & _). unfold next_action in NA. destruct (match q_sub (i_q s') with [] => _ | _ => _ end); [discriminate|]. destruct (fst (drain _ (q_bound _))); [discriminate|].
      destruct (fst (drain _ (q_slack _))); [discriminate|]. pose proof (drain_spec (fun e : nat * bdir => con_active (i_c s') (fst e)) (q_act (i_q s'))) as DA.
      destruct (drain (fun e : nat * bdir => con_active (i_c s') (fst e)) (q_act (i_q s'))) as [[[i' d']|] ta]; cbn [fst] in NA; [|discriminate]. injection NA as -> ->.
      destruct DA as [Oi _]. apply (on_row_cc s') in Oi. now apply (bk_cc _ _ _ _ _ B). }
    specialize (S i Li). rewrite T in S. destruct S; discriminate.
Qed.
End Never.
