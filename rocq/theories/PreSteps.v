(** * Presolving: how many iterations are enough *)
From Verif Require Import SpecGeneral SparseP LinAlg KindP InitP PermP KeptP CarryP RangesP SpecSteps.
From Verif Require Export PreOrder PreTerm.
Local Open Scope nat_scope.

(** ** The queue of activity bounds has no entry twice *)
Section Queue.
Variables (g : general) (rows : list svec).
Local Notation m := (g_rows g).
Record lean (s : pindex) : Prop := mk_lean {
  le_once : NoDup (q_act (i_q s));
  le_rows : forall e, In e (q_act (i_q s)) -> fst e < m;
  le_con : length (c_con (i_c s)) = m;
  le_act : length (c_act (i_c s)) = m }.
Local Notation G := lean.
Lemma lean_same s s' : q_act (i_q s') = q_act (i_q s) -> length (c_con (i_c s')) = length (c_con (i_c s)) -> length (c_act (i_c s')) = length (c_act (i_c s)) -> G s -> G s'.
Proof. intros E1 E2 E3 [A B C D]. split; rewrite ?E1, ?E2, ?E3; assumption. Qed.
Ltac same := eapply lean_same; [| | |eassumption]; cbn; rewrite ?upd_length; reflexivity.

Lemma lean_dec_var s j : G s -> gives (dec_var s j) G.
Proof. intros H. apply gives_any. intros c. apply gives_go. same. Qed.
Lemma lean_dec_con s i : G s -> gives (dec_con s i) G.
Proof. intros H. unfold dec_con, dec. destruct (nth i _ _); [apply gives_panic|]. apply gives_go. same. Qed.
Lemma lean_dec_act s i d : G s -> gives (dec_act s i d) (fun s' => G s' /\ i < m).
Proof.
  intros H. unfold dec_act. destruct (side d _) eqn:E; [apply gives_panic|]. apply gives_go. split; [same|].
  rewrite <- (le_act _ H). destruct (Nat.lt_ge_cases i (length (c_act (i_c s)))) as [L|L]; [assumption|]. rewrite nth_overflow in E by assumption. now destruct d.
Qed.
Lemma lean_queue_variable s j : G s -> gives (queue_variable g s j) G.
Proof.
  intros H. unfold queue_variable. destruct (nth j _ _) as [|[|k]].
  - destruct (qzero _).
    + apply gives_any. intros v. apply gives_go. same.
    + apply gives_any. intros v. apply gives_go. same.
  - apply gives_go. destruct (qzero _); [same|assumption].
  - now apply gives_go.
Qed.
Lemma lean_queue_constraint s i : G s -> gives (queue_constraint g s i) G.
Proof.
  intros H. unfold queue_constraint. destruct (nth i _ _) as [|[|k]].
  - destruct (empty_feasible _ _); [|apply gives_stop]. apply gives_go. same.
  - apply gives_go. same.
  - now apply gives_go.
Qed.
Lemma queued_In e l : In e l -> queued e l = true.
Proof. intros H. apply existsb_exists. exists e. split; [assumption|]. destruct e as [i d]. cbn. rewrite Nat.eqb_refl. now destruct d. Qed.
Lemma NoDup_snoc {A} (l : list A) x : NoDup l -> ~ In x l -> NoDup (l ++ [x]).
Proof.
  intros H N. induction l as [|a l IH]; cbn; [constructor; [tauto|constructor]|]. inversion H as [|? ? H1 H2]; subst. constructor.
  - rewrite in_app_iff. intros [K|[K|[]]]; [contradiction|]. subst. apply N. now left.
  - apply IH; [assumption|]. intros K. apply N. now right.
Qed.
Lemma lean_push s e : G s -> fst e < m -> G (push_act s e).
Proof.
  intros H L. unfold push_act. destruct (queued e (q_act (i_q s))) eqn:E; [assumption|]. destruct H as [A B C D]. split; cbn; try assumption.
  - apply NoDup_snoc; [assumption|]. intros K. apply queued_In in K. congruence.
  - intros x K. apply in_app_iff in K. destruct K as [K|[<-|[]]]; [now apply B|assumption].
Qed.
Lemma lean_shifts d x es s : G s -> G (fold_left (shift_activity d x) es s).
Proof.
  revert s. induction es as [|[i c] es IH]; intros s H; [assumption|]. cbn [fold_left]. apply IH. unfold shift_activity.
  destruct (con_active _ _) eqn:A; [|assumption]. destruct (side _ _); [|assumption]. apply lean_push; [same|]. cbn [fst].
  rewrite <- (le_con _ H). unfold con_active in A. apply negb_true_iff, Nat.eqb_neq in A. now apply nth_nonzero_lt.
Qed.
Lemma lean_counters s j d : G s -> gives (update_activity_counters g s j d) G.
Proof.
  intros H. apply gives_fold; [assumption|]. intros s' [i c] H'. unfold lower_counter. eapply gives_bind; [apply lean_dec_act; exact H'|]. intros s2 [H2 L]. apply gives_go.
  destruct (Nat.leb _ _); [now apply lean_push|assumption].
Qed.
Lemma lean_apply s j d c : G s -> gives (apply_change g s j d c) G.
Proof.
  intros H. assert (K : forall ch, gives (after_bound_change g s j d ch) G).
  { intros ch. unfold after_bound_change. set (s' := match fixed_value g (i_u s) j with Some _ => _ | None => _ end).
    assert (H' : G s') by (unfold s'; destruct (fixed_value _ _ _); [destruct (var_active _ _); [same|assumption]|assumption]).
    destruct ch; [|now apply lean_counters]. apply gives_go. now apply lean_shifts. }
  destruct c; [now apply gives_go|apply K|apply K].
Qed.
Lemma lean_drop s i : G s -> gives (remove_constraint_values g rows s i) G.
Proof.
  intros H. apply gives_fold; [assumption|]. intros s' [j c] H'. eapply gives_bind; [now apply lean_dec_con|]. intros s2 H2.
  eapply gives_bind; [now apply lean_dec_var|]. intros s3 H3. now apply lean_queue_variable.
Qed.
Lemma lean_fixed_variable s j : G s -> gives (fixed_variable_rule g s j) G.
Proof.
  intros H. unfold fixed_variable_rule. apply gives_any. intros v. eapply gives_bind with (Q := G); [|intros s2 H2; apply gives_go; same].
  apply gives_fold; [same|].
  intros s' [i c] H'. eapply gives_bind; [now apply lean_dec_var|]. intros s2 H2. eapply gives_bind; [now apply lean_dec_con|]. intros s3 H3. now apply lean_queue_constraint.
Qed.
Lemma lean_bound_constraint s i : G s -> gives (bound_constraint_rule g rows s i) G.
Proof.
  intros H. unfold bound_constraint_rule. apply gives_any. intros [j c]. eapply gives_bind; [now apply lean_dec_var|]. intros s2 H2.
  eapply gives_bind; [now apply lean_dec_con|]. intros s3 H3. eapply gives_bind with (Q := G).
  - apply gives_fold; [same|]. intros s' [d x] H'. destruct (update_bound g (i_u s') j d x) as [u ch] eqn:E. apply lean_apply. same.
  - intros s4 H4. destruct (feasible_value _ _ _); [now apply lean_queue_variable|apply gives_stop].
Qed.
Lemma lean_set s i d : G s -> gives (set_to_bound g rows s i d) G.
Proof.
  intros H. unfold set_to_bound. eapply gives_bind with (Q := fun r => G (fst r)).
  - apply gives_fold; [assumption|]. intros [s' todo] [j c] H'. apply gives_any. intros x. cbn [fst] in H'.
    destruct (update_bound g _ j (bnot (bmul d c)) x) as [u' ch] eqn:E. apply gives_go. cbn [fst]. same.
  - intros r H'. apply gives_fold; [assumption|]. intros s2 [j d'] H2. now apply lean_counters.
Qed.
Lemma lean_variable_part s i rhs a d made : G s -> gives (variable_part g rows s i rhs a d made) (fun r => G (fst r)).
Proof.
  intros H. apply gives_fold; [assumption|]. intros [s' made'] [j c] H'. apply gives_any. intros x. cbv zeta. cbn [fst] in H'.
  destruct (update_activity_bound _ _ _ _ _) as [u ch]. eapply gives_bind; [apply lean_apply|intros s2 H2; apply gives_go; exact H2]. same.
Qed.
Lemma lean_propagation s i d : G s -> gives (domain_propagation_rule g rows s i d) (fun r => G (fst r)).
Proof.
  intros H. unfold domain_propagation_rule. destruct (side _ _) as [|[|k]]; [| |apply gives_panic].
  - unfold propagate_row. eapply gives_bind with (Q := fun r => G (fst r)).
    { unfold activity_bound. destruct (side _ _); [now apply gives_go|]. apply gives_any. intros x. apply gives_go. cbn. same. }
    intros [s2 a] H2. cbn [fst] in H2. eapply gives_bind with (Q := fun r => G (fst r)).
    { unfold constraint_part. apply gives_any. intros [[|t sh|]|]; try (apply gives_go; cbn; first [assumption|same]).
      eapply gives_bind; [now apply lean_set|]. intros s3 H3. now apply gives_go. }
    intros [s3 [[rm vs] made]] H3. cbn [fst] in H3. eapply gives_bind with (Q := fun r => G (fst r)).
    { destruct vs; [|now apply gives_go]. destruct (usable_side _ _ _); [now apply lean_variable_part|now apply gives_go]. }
    intros [s4 made4] H4. cbn [fst] in H4. destruct rm; [|now apply gives_go]. eapply gives_bind; [now apply lean_drop|]. intros s5 H5. apply gives_go. cbn. same.
  - unfold bound_one. destruct (usable_side _ _ _); [|now apply gives_go]. apply gives_any. intros [j c]. cbv zeta.
    destruct (update_activity_bound _ _ _ _ _) as [u ch]. eapply gives_bind; [apply lean_apply|intros s2 H2; apply gives_go; exact H2]. same.
Qed.
Lemma lean_slack s j : G s -> gives (slack_rule g rows s j) G.
Proof.
  intros H. unfold slack_rule. apply gives_any. intros [i c]. destruct (slack_case _ _ _ _) as [[t' bound]|].
  - eapply gives_bind; [now apply lean_dec_var|]. intros s2 H2. eapply gives_bind with (Q := G).
    { apply gives_fold; [same|]. intros s' d H'. destruct (bound_of _ _ _ _); [now apply gives_go|]. eapply gives_bind; [now apply lean_dec_act|]. intros s3 [H3 L]. apply gives_go.
      destruct (Nat.leb _ _); [now apply lean_push|assumption]. }
    intros s3 H3. eapply gives_bind; [now apply lean_dec_con|]. intros s4 H4. eapply gives_bind; [now apply lean_queue_constraint|]. intros s5 H5. apply gives_go. same.
  - eapply gives_bind with (Q := G).
    { apply gives_fold; [assumption|]. intros s' [k a] H'. eapply gives_bind; [now apply lean_dec_con|]. intros s2 H2.
      eapply gives_bind; [now apply lean_dec_var|]. intros s3 H3. destruct (Nat.eqb k j); [now apply gives_go|now apply lean_queue_variable]. }
    intros s2 H2. apply gives_go. same.
Qed.
Lemma drain_tail {A} (f : A -> bool) : forall l, NoDup l -> NoDup (snd (drain f l)) /\ incl (snd (drain f l)) l.
Proof.
  induction l as [|a l IH]; intros N; cbn; [split; [assumption|easy]|]. inversion N as [|? ? N1 N2]; subst. destruct (f a); cbn.
  - split; [assumption|]. intros x H. now right.
  - destruct (IH N2) as [K1 K2]. split; [assumption|]. intros x H. right. now apply K2.
Qed.
Lemma lean_step s : G s -> gives (presolve_step g rows s) (fun r => G (fst r)).
Proof.
  intros H. unfold presolve_step. assert (K : forall a b c, G (with_q s (mk_queues a b c (q_act (i_q s))))) by (intros; same).
  set (sub := match q_sub (i_q s) with [] => _ | _ => _ end). destruct (fst sub) as [j|].
  - eapply gives_bind; [apply lean_fixed_variable, K|]. intros s2 H2. now apply gives_go.
  - destruct (fst (drain _ (q_bound _))) as [i|].
    + eapply gives_bind; [apply lean_bound_constraint, K|]. intros s2 H2. now apply gives_go.
    + destruct (fst (drain _ (q_slack _))) as [j|].
      * eapply gives_bind; [apply lean_slack, K|]. intros s2 H2. now apply gives_go.
      * match goal with |- context [drain ?f (q_act (i_q s))] => set (p := f) end. destruct (drain_tail p _ (le_once _ H)) as [N I].
        assert (K' : forall a b c, G (with_q s (mk_queues a b c (snd (drain p (q_act (i_q s))))))).
        { intros. destruct H as [A B C D]. split; cbn; auto. }
        destruct (fst (drain p (q_act (i_q s)))) as [[i d]|]; [apply lean_propagation, K'|apply gives_go, K'].
Qed.
Lemma lean_length s : G s -> length (q_act (i_q s)) <= 2 * m.
Proof.
  intros [A B _ _]. replace (2 * m) with (length (list_prod (seq 0 m) [Lower; Upper])) by (rewrite prod_length, seq_length; cbn; lia).
  apply NoDup_incl_length; [assumption|]. intros [i d] H. apply in_prod_iff. split; [apply in_seq; specialize (B _ H); cbn in B; lia|]. destruct d; [now left|right; now left].
Qed.
Lemma queue_new_once (f : nat -> list (nat * bdir)) : (forall i, NoDup (f i) /\ forall e, In e (f i) -> fst e = i) -> forall k a, NoDup (flat_map f (seq a k)).
Proof.
  intros H. induction k as [|k IH]; intros a; cbn; [constructor|]. specialize (IH (S a)). destruct (H a) as [N E].
  assert (D : forall e, In e (f a) -> ~ In e (flat_map f (seq (S a) k))).
  { intros e I J. apply in_flat_map in J. destruct J as (b & J1 & J2). apply in_seq in J1. apply E in I. destruct (H b) as [_ E']. apply E' in J2. lia. }
  clear E H. induction (f a) as [|x l IHl]; cbn; [assumption|]. inversion N as [|? ? N1 N2]; subst. constructor.
  - rewrite in_app_iff. intros [K|K]; [contradiction|]. exact (D x (or_introl eq_refl) K).
  - apply IHl; [assumption|]. intros e I. apply D. now right.
Qed.
Lemma lean_start : gives (index_new g rows) G.
Proof.
  unfold index_new. apply gives_any. intros u. apply gives_go. split; cbn [i_q i_c].
  - cbn [queues_new q_act]. unfold range. apply queue_new_once. intros i. destruct (nth i (c_act (counters_new g rows)) (0, 0)) as [l h].
    destruct (Nat.ltb 1 _); [|split; [constructor|easy]]. destruct (Nat.leb l 1), (Nat.leb h 1); cbn; split; try (repeat constructor; cbn; intuition discriminate); intros e He; cbn in He; intuition (subst; reflexivity).
  - intros e. cbn [queues_new q_act]. rewrite in_flat_map. intros (i & Hi & He). apply In_range in Hi.
    destruct (nth i (c_act (counters_new g rows)) (0, 0)) as [l h]. destruct (Nat.ltb 1 _); [|easy].
    assert (fst e = i); [|lia]. destruct (Nat.leb l 1), (Nat.leb h 1); cbn in He; intuition (subst; reflexivity).
  - cbn. unfold range. now rewrite map_length, seq_length, Nat.sub_0_r.
  - cbn. unfold range. now rewrite map_length, seq_length, Nat.sub_0_r.
Qed.

(** ** Iterations *)
Local Notation n := (length (g_vars g)).
Lemma loop_within : forall fuel s stale, length (c_var (i_c s)) = n -> G s ->
  measure g (i_u s) * ((n + m + 1) * (2 * m + 1)) + (n + m - stale) * (2 * m + 1) + length (q_act (i_q s)) <= fuel -> presolve_loop g rows fuel stale s <> PFuel.
Proof.
  induction fuel as [|fuel IH]; intros s stale Lv Hs L; cbn [presolve_loop]; (destruct (queues_empty (i_q s)) eqn:Q; [discriminate|]);
    (destruct (nr_remaining g (i_u s)) as [k|v| |] eqn:N; cbn [pbind]; [|discriminate..|unfold nr_remaining in N; destruct (_ || _)%bool; discriminate]);
    (destruct (Nat.leb k stale) eqn:KS; [discriminate|]); apply Nat.leb_gt in KS; pose proof (nr_remaining_go g _ _ N) as [_ KN].
  - exfalso. assert (1 <= n + m - stale) by lia. nia.
  - pose proof (lean_step s Hs) as LS. pose proof (step_no_fuel g rows s) as NF. destruct (presolve_step g rows s) as [[s' ch]|v| |] eqn:E; cbn [pbind fst snd]; try discriminate; [|congruence].
    specialize (LS _ eq_refl). cbn [fst] in LS. destruct (step_progress g rows s (s', ch) Lv (le_con _ Hs) E) as (Lv' & Lc' & P). cbn [fst snd] in *.
    pose proof (lean_length s' LS) as LQ. set (B := n + m) in *. set (C := 2 * m) in *.
    destruct ch.
    + destruct (Nat.leb_spec (length (u_removed (i_u s'))) n); [destruct (Nat.leb_spec (length (u_gone (i_u s'))) m)|].
      * specialize (P ltac:(split; assumption)). apply IH; [assumption..|]. fold B C. rewrite Nat.sub_0_r.
        assert (Y : (measure g (i_u s') + 1) * ((B + 1) * (C + 1)) <= measure g (i_u s) * ((B + 1) * (C + 1))) by (apply Nat.mul_le_mono_r; lia). nia.
      * destruct fuel as [|f]; cbn; (destruct (queues_empty (i_q s')); [discriminate|]); rewrite nr_remaining_other by (unfold fits; lia); cbn; discriminate.
      * destruct fuel as [|f]; cbn; (destruct (queues_empty (i_q s')); [discriminate|]); rewrite nr_remaining_other by (unfold fits; lia); cbn; discriminate.
    + apply IH; [assumption..|]. fold B C.
      assert (Y : measure g (i_u s') * ((B + 1) * (C + 1)) <= measure g (i_u s) * ((B + 1) * (C + 1))) by (apply Nat.mul_le_mono_r; lia).
      assert (Z : B - stale = S (B - S stale)) by lia. rewrite Z in L. nia.
    + destruct P as [P1 P2]. apply IH; [assumption..|]. fold B C.
      assert (Y : measure g (i_u s') * ((B + 1) * (C + 1)) <= measure g (i_u s) * ((B + 1) * (C + 1))) by (apply Nat.mul_le_mono_r; lia). lia.
Qed.
Lemma filter_short {A} (f : A -> bool) l : length (filter f l) <= length l.
Proof. induction l as [|a l IH]; cbn; [lia|]. destruct (f a); cbn; lia. Qed.
Lemma measure_small u : measure g u <= 4 * n + 2 * m.
Proof.
  unfold measure, missing, ranges. pose proof (filter_short (lacks g u) (list_prod (range 0 n) [Lower; Upper])) as A. rewrite prod_length in A.
  pose proof (filter_short (fun i => is_range (type_of g u i)) (range 0 m)) as B. unfold range in *. rewrite !seq_length in *. cbn in A. lia.
Qed.
End Queue.
Lemma changes_within g fuel : presolve_steps (g_rows g) (nr_vars g) <= fuel -> presolve_changes fuel g <> PFuel.
Proof.
  intros L. unfold presolve_changes. pose proof (transpose_no_fuel (g_cols g) 0 (repeat [] (g_rows g))) as T.
  destruct (transpose_from 0 (g_cols g) (repeat [] (g_rows g))) as [rows| |]; cbn [lift pbind]; [|discriminate|contradiction].
  pose proof (lean_start g rows) as H. assert (NF : index_new g rows <> PFuel) by (unfold index_new; apply nofuel_bind; [apply updates_no_fuel|discriminate]).
  destruct (index_new g rows) as [s|v| |] eqn:E; cbn [pbind]; [|discriminate..|contradiction]. specialize (H _ eq_refl).
  assert (LV : length (c_var (i_c s)) = length (g_vars g)).
  { unfold index_new in E. apply pbind_go in E. destruct E as (u & _ & E). injection E as <-. cbn [i_c]. apply counters_new_length. }
  pose proof (loop_within g rows fuel s 0 LV H) as W. destruct (presolve_loop g rows fuel 0 s); cbn; try discriminate. exfalso. apply W; [|reflexivity].
  pose proof (measure_small g (i_u s)) as M. pose proof (lean_length g s H) as Q. unfold presolve_steps, nr_vars in L. set (n := length (g_vars g)) in *. set (m := g_rows g) in *.
  set (B := n + m) in *. set (C := 2 * m) in *. apply Nat.le_trans with (2 := L). rewrite Nat.sub_0_r.
  assert (Y : measure g (i_u s) * ((B + 1) * (C + 1)) <= (4 * n + C) * ((B + 1) * (C + 1))) by (apply Nat.mul_le_mono_r; unfold C; lia). nia.
Qed.
Lemma changes_settle g fuel : presolve_steps (g_rows g) (nr_vars g) <= fuel -> presolve_changes fuel g = presolve_changes (presolve_steps (g_rows g) (nr_vars g)) g.
Proof.
  intros L. pose proof (changes_within g _ (le_n _)) as N. set (f := presolve_steps _ _) in *. unfold presolve_changes in *.
  destruct (lift _) as [rows|v| |]; cbn [pbind] in *; try reflexivity. destruct (index_new g rows) as [s|v| |]; cbn [pbind] in *; try reflexivity.
  replace fuel with ((fuel - f) + f) by lia. rewrite loop_more; [reflexivity|]. intros X. rewrite X in N. now apply N.
Qed.
