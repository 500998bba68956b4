(** * Presolving: variables whose value depends on others depend on variables that are removed later

    This is what makes the values of the removed variables computable from those that remain. *)
From Verif Require Import SpecGeneral SparseP LinAlg KindP InitP.
From Verif Require Export PreStart.
Local Open Scope Qc_scope.

Definition gives {A} (x : pr A) (Q : A -> Prop) : Prop := forall a, x = Go a -> Q a.
Lemma gives_go {A} (a : A) (Q : A -> Prop) : Q a -> gives (Go a) Q.
Proof. intros H b E. injection E as <-. assumption. Qed.
Lemma gives_stop {A} v (Q : A -> Prop) : gives (Stop v) Q. Proof. discriminate. Qed.
Lemma gives_panic {A} (Q : A -> Prop) : gives PPanic Q. Proof. discriminate. Qed.
Lemma gives_bind {A B} (x : pr A) (f : A -> pr B) (Q : A -> Prop) (R : B -> Prop) : gives x Q -> (forall a, Q a -> gives (f a) R) -> gives (pbind x f) R.
Proof. intros H K b E. destruct x as [a| | |]; cbn in E; try discriminate. exact (K a (H a eq_refl) b E). Qed.
Lemma gives_any {A B} (x : pr A) (f : A -> pr B) (R : B -> Prop) : (forall a, gives (f a) R) -> gives (pbind x f) R.
Proof. intros K. apply (gives_bind x f (fun _ => True)); [now intros|]. auto. Qed.
Lemma gives_fold {A B} (f : A -> B -> pr A) (P : A -> Prop) l a : P a -> (forall a b, P a -> gives (f a b) P) -> gives (foldP f l a) P.
Proof.
  intros H K. revert a H. induction l as [|b l IH]; intros a H; cbn; [now apply gives_go|]. eapply gives_bind; [now apply K|]. intros a' H'. now apply IH.
Qed.
Lemma gives_impl {A} (x : pr A) (Q R : A -> Prop) : gives x Q -> (forall a, Q a -> R a) -> gives x R.
Proof. intros H K a E. now apply K, H. Qed.

(** only variables with known values are added *)
Definition solved (r : removed) : Prop := exists v, r = Solved v.
Definition grows (l : list (nat * removed)) (s : pindex) : Prop :=
  exists t, u_removed (i_u s) = l ++ t /\ forall j r, In (j, r) t -> solved r.
Lemma grows_refl s : grows (u_removed (i_u s)) s.
Proof. exists []. rewrite app_nil_r. split; [reflexivity|]. now intros. Qed.
Lemma grows_same l s s' : u_removed (i_u s') = u_removed (i_u s) -> grows l s -> grows l s'.
Proof. intros E (t & H & K). exists t. now rewrite E. Qed.
Lemma grows_mark l s j v : grows l s -> grows l (mark_variable s j (Solved v)).
Proof.
  intros (t & H & K). exists (t ++ [(j, Solved v)]). cbn. rewrite H, app_assoc. split; [reflexivity|]. intros k r I. apply in_app_or in I.
  destruct I as [I|[E|[]]]; [now apply (K k)|]. injection E as <- <-. now exists v.
Qed.

Section Grow.
Variables (g : general) (rows : list svec).
Variable l : list (nat * removed).
Local Notation G := (grows l).
Ltac same := eapply grows_same; [|eassumption]; reflexivity.

Lemma grows_dec_var s j : G s -> gives (dec_var s j) G.
Proof. intros H. apply gives_any. intros c. apply gives_go. same. Qed.
Lemma grows_dec_con s i : G s -> gives (dec_con s i) G.
Proof. intros H. apply gives_any. intros c. apply gives_go. same. Qed.
Lemma grows_dec_act s i d : G s -> gives (dec_act s i d) G.
Proof. intros H. unfold dec_act. destruct (side d _); [apply gives_panic|]. apply gives_go. same. Qed.
Lemma grows_queue_variable s j : G s -> gives (queue_variable g s j) G.
Proof.
  intros H. unfold queue_variable. destruct (nth j _ _) as [|[|k]].
  - destruct (qzero _).
    + apply gives_any. intros v. apply gives_go. now apply grows_mark.
    + apply gives_any. intros v. apply gives_go. apply grows_mark. same.
  - apply gives_go. destruct (qzero _); [same|assumption].
  - now apply gives_go.
Qed.
Lemma grows_queue_constraint s i : G s -> gives (queue_constraint g s i) G.
Proof.
  intros H. unfold queue_constraint. destruct (nth i _ _) as [|[|k]].
  - destruct (empty_feasible _ _); [|apply gives_stop]. apply gives_go. same.
  - apply gives_go. same.
  - now apply gives_go.
Qed.
Lemma removed_push s e : u_removed (i_u (push_act s e)) = u_removed (i_u s).
Proof. unfold push_act. now destruct (queued _ _). Qed.
Lemma removed_shifts d x es s : u_removed (i_u (fold_left (shift_activity d x) es s)) = u_removed (i_u s).
Proof.
  revert s. induction es as [|[i c] es IH]; intros s; [reflexivity|]. cbn [fold_left]. rewrite IH. unfold shift_activity.
  destruct (con_active _ _); [|reflexivity]. destruct (side _ _); [|reflexivity]. now rewrite removed_push.
Qed.
Lemma grows_counters s j d : G s -> gives (update_activity_counters g s j d) G.
Proof.
  intros H. apply gives_fold; [assumption|]. intros s' [i c] H'. unfold lower_counter. eapply gives_bind; [apply grows_dec_act; exact H'|]. intros s2 H2. apply gives_go.
  destruct (Nat.leb _ _); [eapply grows_same; [apply removed_push|assumption]|assumption].
Qed.
Lemma grows_apply s j d c : G s -> gives (apply_change g s j d c) G.
Proof.
  intros H. assert (K : forall ch, gives (after_bound_change g s j d ch) G).
  { intros ch. unfold after_bound_change. set (s' := match fixed_value g (i_u s) j with Some _ => _ | None => _ end).
    assert (H' : G s') by (unfold s'; destruct (fixed_value _ _ _); [destruct (var_active _ _); [same|assumption]|assumption]).
    destruct ch; [|now apply grows_counters]. apply gives_go. eapply grows_same; [apply removed_shifts|assumption]. }
  destruct c; [now apply gives_go|apply K|apply K].
Qed.
Lemma grows_drop s i : G s -> gives (remove_constraint_values g rows s i) G.
Proof.
  intros H. apply gives_fold; [assumption|]. intros s' [j c] H'. eapply gives_bind; [now apply grows_dec_con|]. intros s2 H2.
  eapply gives_bind; [now apply grows_dec_var|]. intros s3 H3. now apply grows_queue_variable.
Qed.
Lemma removed_changes {B} (f : updates -> B -> updates) es u : (forall u e, u_removed (f u e) = u_removed u) -> u_removed (fold_left f es u) = u_removed u.
Proof. intros H. revert u. induction es as [|e es IH]; intros u; [reflexivity|]. cbn [fold_left]. rewrite IH. apply H. Qed.
Lemma grows_fixed_variable s j : G s -> gives (fixed_variable_rule g s j) G.
Proof.
  intros H. unfold fixed_variable_rule. apply gives_any. intros v. eapply gives_bind with (Q := G); [|intros s2 H2; apply gives_go; now apply grows_mark].
  apply gives_fold.
  - eapply grows_same; [|exact H]. cbn. apply (removed_changes (fun u '(i, c) => change_b g u i (- c * v))). now intros u [i c].
  - intros s' [i c] H'. eapply gives_bind; [now apply grows_dec_var|]. intros s2 H2. eapply gives_bind; [now apply grows_dec_con|]. intros s3 H3. now apply grows_queue_constraint.
Qed.
Lemma removed_compare u ins d a b : (forall u x, u_removed (ins u x) = u_removed u) -> u_removed (fst (compare_update u ins d a b)) = u_removed u.
Proof. intros H. unfold compare_update. destruct (match d with Lower => _ | Upper => _ end); [apply H|reflexivity]. Qed.
Lemma removed_update u j d x : u_removed (fst (update_bound g u j d x)) = u_removed u.
Proof.
  unfold update_bound. destruct (u_bounds u j d); [now apply removed_compare|]. destruct (u_acts u j d); [now rewrite removed_compare|].
  destruct (vbound _ _); [now apply removed_compare|reflexivity].
Qed.
Lemma removed_update_act u j d x : u_removed (fst (update_activity_bound g u j d x)) = u_removed u.
Proof.
  unfold update_activity_bound. destruct (u_acts u j d); [now apply removed_compare|]. destruct (u_bounds u j d); [now rewrite removed_compare|].
  destruct (vbound _ _); [now apply removed_compare|reflexivity].
Qed.
Lemma grows_bound_constraint s i : G s -> gives (bound_constraint_rule g rows s i) G.
Proof.
  intros H. unfold bound_constraint_rule. apply gives_any. intros [j c]. eapply gives_bind; [now apply grows_dec_var|]. intros s2 H2.
  eapply gives_bind; [now apply grows_dec_con|]. intros s3 H3. eapply gives_bind with (Q := G).
  - apply gives_fold; [same|]. intros s' [d x] H'. destruct (update_bound g (i_u s') j d x) as [u ch] eqn:E. apply grows_apply. eapply grows_same; [|exact H'].
    cbn. change u with (fst (u, ch)). rewrite <- E. apply removed_update.
  - intros s4 H4. destruct (feasible_value _ _ _); [now apply grows_queue_variable|apply gives_stop].
Qed.
Lemma grows_set s i d : G s -> gives (set_to_bound g rows s i d) G.
Proof.
  intros H. unfold set_to_bound. eapply gives_bind with (Q := fun r => G (fst r)).
  - apply gives_fold; [assumption|]. intros [s' todo] [j c] H'. apply gives_any. intros x.
    set (u := match u_acts (i_u s') j (bmul d c) with Some _ => _ | None => _ end). destruct (update_bound g u j (bnot (bmul d c)) x) as [u' ch] eqn:E.
    apply gives_go. cbn [fst]. eapply grows_same; [|exact H']. cbn. change u' with (fst (u', ch)). rewrite <- E, removed_update. unfold u. now destruct (u_acts _ _ _).
  - intros r H'. apply gives_fold; [assumption|]. intros s2 [j d'] H2. now apply grows_counters.
Qed.
Lemma grows_variable_part s i rhs a d made : G s -> gives (variable_part g rows s i rhs a d made) (fun r => G (fst r)).
Proof.
  intros H. apply gives_fold; [assumption|]. intros [s' made'] [j c] H'. apply gives_any. intros x. cbv zeta. match goal with |- context [update_activity_bound ?a ?b ?c ?d ?e] => destruct (update_activity_bound a b c d e) as [u ch] eqn:E end.
  eapply gives_bind; [apply grows_apply|intros s2 H2; apply gives_go; exact H2]. eapply grows_same; [|exact H'].
  cbn. change u with (fst (u, ch)). rewrite <- E. apply removed_update_act.
Qed.
Lemma grows_propagation s i d : G s -> gives (domain_propagation_rule g rows s i d) (fun r => G (fst r)).
Proof.
  intros H. unfold domain_propagation_rule. destruct (side _ _) as [|[|k]]; [| |apply gives_panic].
  - unfold propagate_row. eapply gives_bind with (Q := fun r => G (fst r)).
    { unfold activity_bound. destruct (side _ _); [now apply gives_go|]. apply gives_any. intros x. apply gives_go. cbn. same. }
    intros [s2 a] H2. cbn [fst] in H2. eapply gives_bind with (Q := fun r => G (fst r)).
    { unfold constraint_part. apply gives_any. intros [[|t sh|]|]; try (apply gives_go; cbn; first [assumption|same]).
      eapply gives_bind; [now apply grows_set|]. intros s3 H3. now apply gives_go. }
    intros [s3 [[rm vs] made]] H3. cbn [fst] in H3. eapply gives_bind with (Q := fun r => G (fst r)).
    { destruct vs; [|now apply gives_go]. destruct (usable_side _ _ _); [now apply grows_variable_part|now apply gives_go]. }
    intros [s4 made4] H4. cbn [fst] in H4. destruct rm; [|now apply gives_go]. eapply gives_bind; [now apply grows_drop|]. intros s5 H5. apply gives_go. cbn. same.
  - unfold bound_one. destruct (usable_side _ _ _); [|now apply gives_go]. apply gives_any. intros [j c]. cbv zeta. match goal with |- context [update_activity_bound ?a ?b ?c ?d ?e] => destruct (update_activity_bound a b c d e) as [u ch] eqn:E end.
    eapply gives_bind; [apply grows_apply|intros s2 H2; apply gives_go; exact H2]. eapply grows_same; [|exact H].
    cbn. change u with (fst (u, ch)). rewrite <- E. apply removed_update_act.
Qed.
End Grow.

(** ** The order *)
Inductive ordered (n : nat) : list (nat * removed) -> Prop :=
  | ordered_nil : ordered n []
  | ordered_solved : forall l j v, ordered n l -> ordered n (l ++ [(j, Solved v)])
  | ordered_function : forall l j c cs, ordered n l ->
      (forall k a, In (k, a) cs -> (k < n)%nat /\ k <> j /\ forall r, In (k, r) l -> solved r) -> ordered n (l ++ [(j, FunctionOf c cs)]).
Lemma ordered_split n l : ordered n l -> forall pre j c cs post, l = pre ++ (j, FunctionOf c cs) :: post ->
  forall k a, In (k, a) cs -> (k < n)%nat /\ k <> j /\ forall r, In (k, r) pre -> solved r.
Proof.
  induction 1 as [|l j0 v O IH|l j0 c0 cs0 O IH H]; intros pre j c cs post E.
  - destruct pre; discriminate.
  - destruct post as [|y post] using rev_ind.
    + apply app_inj_tail in E. destruct E as [_ E]. discriminate.
    + change (pre ++ (j, FunctionOf c cs) :: post ++ [y]) with (pre ++ ((j, FunctionOf c cs) :: post) ++ [y]) in E.
      rewrite app_assoc in E. apply app_inj_tail in E. destruct E as [E _]. exact (IH pre j c cs post E).
  - destruct post as [|y post] using rev_ind.
    + apply app_inj_tail in E. destruct E as [E1 E2]. injection E2 as <- <- <-. now subst pre.
    + change (pre ++ (j, FunctionOf c cs) :: post ++ [y]) with (pre ++ ((j, FunctionOf c cs) :: post) ++ [y]) in E.
      rewrite app_assoc in E. apply app_inj_tail in E. destruct E as [E _]. exact (IH pre j c cs post E).
Qed.
Lemma ordered_grows n l t : ordered n l -> (forall j r, In (j, r) t -> solved r) -> ordered n (l ++ t).
Proof.
  intros O. induction t as [|[j r] t IH] using rev_ind; intros H; [now rewrite app_nil_r|]. rewrite app_assoc.
  destruct (H j r) as [v ->]; [apply in_or_app; right; now left|]. apply ordered_solved, IH. intros k r I. apply (H k). apply in_or_app. now left.
Qed.
Definition orderly (n : nat) (s : pindex) : Prop := ordered n (u_removed (i_u s)).
Lemma grows_orderly n s s' : orderly n s -> grows (u_removed (i_u s)) s' -> orderly n s'.
Proof. intros O (t & E & K). unfold orderly. rewrite E. now apply ordered_grows. Qed.

Section Ordered.
Variables (g : general) (rows : list svec).
Local Notation n := (nr_vars g).
Local Notation tidy := (tidy g rows).
Hypothesis M : matrix_ok g rows.
Hypothesis from_id : forall k, (k < n)%nat -> nth k (g_from g) 0%nat = k.

Definition still_there (s : pindex) : Prop := forall k, cv s k <> 0%nat -> (k < n)%nat /\ ~ In k (map fst (u_removed (i_u s))).
Lemma ordered_slack s j : still_there s -> orderly n s -> gives (slack_rule g rows s j) (orderly n).
Proof.
  intros T O. unfold slack_rule. apply gives_any. intros [i c].
  assert (R : forall k a, In (k, a) (map (fun '(k, a) => (nth k (g_from g) 0%nat, a / c)) (filter (fun '(k, _) => negb (Nat.eqb k j)) (active_row rows (i_c s) i))) ->
    (k < n)%nat /\ k <> j /\ ~ In k (map fst (u_removed (i_u s)))).
  { intros k a I. apply in_map_iff in I. destruct I as ([k' a'] & E & I). apply filter_In in I. destruct I as [I D]. apply (active_row_In rows) in I.
    destruct (T k' (proj2 I)) as [L NR]. injection E as E1 _. rewrite from_id in E1 by assumption. subst k'. split; [assumption|]. split.
    - intros ->. now rewrite Nat.eqb_refl in D.
    - assumption. }
  assert (R' : forall k a, In (k, a) (map (fun '(k, a) => (nth k (g_from g) 0%nat, a / c)) (filter (fun '(k, _) => negb (Nat.eqb k j)) (active_row rows (i_c s) i))) ->
    (k < n)%nat /\ k <> j /\ forall r, In (k, r) (u_removed (i_u s)) -> solved r).
  { intros k a I. destruct (R k a I) as (R1 & R2 & R3). split; [assumption|]. split; [assumption|]. intros r X. exfalso. apply R3. now apply (in_map fst) in X. }
  destruct (slack_case _ _ _ _) as [[t' bound]|].
  - set (sol := match type_of g (i_u s) i with Equal | Range _ => _ | _ => _ end).
    assert (O2 : ordered n (u_removed (i_u s) ++ [(j, sol)])).
    { unfold sol, slack_value. destruct (type_of g (i_u s) i); first [now apply ordered_solved|now apply ordered_function]. }
    eapply gives_bind with (Q := fun s' => u_removed (i_u s') = u_removed (i_u s)).
    { apply gives_any. intros l. now apply gives_go. }
    intros s2 H2. set (L := u_removed (i_u s) ++ [(j, sol)]) in *.
    apply (gives_impl _ (grows L)); [|intros s' (t & E & K); unfold orderly; rewrite E; now apply ordered_grows].
    eapply gives_bind with (Q := grows L).
    { apply gives_fold.
      - exists []. rewrite app_nil_r. split; [|now intros]. cbn. now rewrite H2.
      - intros s' d H. destruct (bound_of _ _ _ _); [now apply gives_go|]. eapply gives_bind; [apply grows_dec_act; exact H|]. intros s3 H3. apply gives_go.
        destruct (Nat.leb _ _); [eapply grows_same; [apply removed_push|assumption]|assumption]. }
    intros s3 H3. eapply gives_bind; [apply grows_dec_con; exact H3|]. intros s4 H4. eapply gives_bind; [apply grows_queue_constraint; exact H4|]. intros s5 H5.
    apply gives_go. eapply grows_same; [|exact H5]. reflexivity.
  - eapply gives_bind with (Q := grows (u_removed (i_u s))).
    { apply gives_fold; [apply grows_refl|]. intros s' [k a] H. eapply gives_bind; [apply grows_dec_con; exact H|]. intros s2 H2.
      eapply gives_bind; [apply grows_dec_var; exact H2|]. intros s3 H3. destruct (Nat.eqb k j); [now apply gives_go|now apply grows_queue_variable]. }
    intros s2 (t & E & K). apply gives_go. unfold orderly. cbn. rewrite E. apply ordered_function; [now apply ordered_grows|].
    intros k a I. destruct (R' k a I) as (R1 & R2 & R3). split; [assumption|]. split; [assumption|]. intros r X. apply in_app_or in X. destruct X as [X|X]; [now apply R3|now apply (K k)].
Qed.
Lemma ordered_step s : tidy nobody s -> orderly n s -> gives (presolve_step g rows s) (fun r => orderly n (fst r)).
Proof.
  intros T O. unfold presolve_step.
  set (sub := match q_sub (i_q s) with [] => _ | _ => _ end). destruct (fst sub) as [j|].
  - eapply gives_bind; [apply grows_fixed_variable, grows_refl|]. intros s2 H2. apply gives_go. eapply grows_orderly; [|exact H2]. exact O.
  - destruct (fst (drain _ (q_bound _))) as [i|].
    + eapply gives_bind; [apply grows_bound_constraint, grows_refl|]. intros s2 H2. apply gives_go. eapply grows_orderly; [|exact H2]. exact O.
    + destruct (fst (drain _ (q_slack _))) as [j|].
      * eapply gives_bind; [apply ordered_slack|].
        -- intros k K. split; [now apply (cv_lt _ _ _ _ _ T)|]. intros X. apply (td_rem _ _ _ _ T) in X. now apply K.
        -- exact O.
        -- intros s2 H2. now apply gives_go.
      * destruct (fst (drain _ (q_act _))) as [[i d]|].
        -- eapply gives_impl; [apply grows_propagation, grows_refl|]. intros r H. eapply grows_orderly; [|exact H]. exact O.
        -- apply gives_go. exact O.
Qed.
Lemma ordered_loop fuel : forall stale sup s, tidy nobody s -> implied g rows (view_of s) -> supported g rows sup s -> orderly n s -> safe_loop g rows fuel stale sup s = true ->
  gives (presolve_loop g rows fuel stale s) (orderly n).
Proof.
  induction fuel as [|fuel IH]; intros stale sup s T I S O SL; cbn [presolve_loop]; cbn [safe_loop] in SL; apply andb_true_iff in SL; destruct SL as [DL SL];
    (destruct (queues_empty (i_q s)); [now apply gives_go|]); destruct (nr_remaining_go g rows s T) as [r NR]; rewrite NR in *; cbn [pbind];
    (destruct (Nat.leb r stale); [now apply gives_go|]); [discriminate|].
  apply andb_true_iff in SL. destruct SL as [SS SL]. pose proof (presolve_step_spec g rows M from_id s sup T I S (domains_left_ok g rows s T DL) SS) as P.
  pose proof (ordered_step s T O) as OS. destruct (presolve_step g rows s) as [[s' ch]| | |]; try discriminate. cbn [pbind pspec fst snd] in *.
  specialize (OS _ eq_refl). cbn [fst] in OS. destruct P as ((P1 & P2 & P3) & PS). destruct ch; exact (IH _ _ s' P1 P3 PS OS SL).
Qed.
End Ordered.
