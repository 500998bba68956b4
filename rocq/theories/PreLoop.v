(** * Presolving: the main loop *)
From Verif Require Import SpecGeneral SparseP LinAlg KindP InitP.
From Verif Require Export PreRow SafeRun.
Local Open Scope Qc_scope.

(** ** Functions that do not look at the queue of bound constraints *)
Definition pmap {A B} (f : A -> B) (x : pr A) : pr B := pbind x (fun a => Go (f a)).
Definition set_qb (qb : list nat) (s : pindex) : pindex := with_q s (mk_queues (q_sub (i_q s)) qb (q_slack (i_q s)) (q_act (i_q s))).
Definition blind (F : pindex -> pr pindex) : Prop :=
  (forall qb s, F (set_qb qb s) = pmap (set_qb qb) (F s)) /\ (forall s s', F s = Go s' -> c_con (i_c s') = c_con (i_c s)).
Lemma blind_bind F G : blind F -> blind G -> blind (fun s => let+ s' := F s in G s').
Proof.
  intros [F1 F2] [G1 G2]. split.
  - intros qb s. rewrite F1. destruct (F s); cbn; try reflexivity. apply G1.
  - intros s s' E. apply pbind_go in E. destruct E as (s1 & E1 & E2). apply F2 in E1. apply G2 in E2. congruence.
Qed.
Lemma blind_fold {A} (f : pindex -> A -> pr pindex) : (forall a, blind (fun s => f s a)) -> forall l, blind (fun s => foldP f l s).
Proof.
  intros H. induction l as [|a l IH]; [split; [reflexivity|intros s s' E; now injection E as <-]|]. apply (blind_bind (fun s => f s a) (fun s => foldP f l s)); [apply H|assumption].
Qed.
Lemma blind_go f : (forall qb s, f (set_qb qb s) = set_qb qb (f s)) -> (forall s, c_con (i_c (f s)) = c_con (i_c s)) -> blind (fun s => Go (f s)).
Proof. intros H K. split; [intros qb s; cbn; now rewrite H|intros s s' E; injection E as <-; apply K]. Qed.
Lemma blind_dec_var j : blind (fun s => dec_var s j).
Proof.
  split.
  - intros qb s. unfold dec_var. change (i_c (set_qb qb s)) with (i_c s). destruct (dec (c_var (i_c s)) j); reflexivity.
  - intros s s'. unfold dec_var. destruct (dec (c_var (i_c s)) j); cbn; try discriminate. intros E. now injection E as <-.
Qed.
Lemma blind_dec_act i d : blind (fun s => dec_act s i d).
Proof.
  split.
  - intros qb s. unfold dec_act. change (i_c (set_qb qb s)) with (i_c s). destruct (side d (nth i (c_act (i_c s)) (0, 0)%nat)); reflexivity.
  - intros s s'. unfold dec_act. destruct (side d _); try discriminate. intros E. now injection E as <-.
Qed.
Lemma push_act_qb qb s e : push_act (set_qb qb s) e = set_qb qb (push_act s e).
Proof. unfold push_act. change (q_act (i_q (set_qb qb s))) with (q_act (i_q s)). destruct (queued e (q_act (i_q s))); reflexivity. Qed.
Lemma push_act_con s e : c_con (i_c (push_act s e)) = c_con (i_c s).
Proof. unfold push_act. destruct (queued e (q_act (i_q s))); reflexivity. Qed.
Lemma blind_lower_counter d e : blind (fun s => lower_counter d s e).
Proof.
  destruct e as [i c]. unfold lower_counter. apply (blind_bind (fun s => dec_act s i (bmul d c)) (fun s => Go (if Nat.leb (side (bmul d c) (nth i (c_act (i_c s)) (0, 0)%nat)) 1 then push_act s (i, bmul d c) else s))).
  - apply blind_dec_act.
  - apply blind_go.
    + intros qb s. cbn [set_qb with_q i_c]. destruct (Nat.leb _ 1); [apply push_act_qb|reflexivity].
    + intros s. destruct (Nat.leb _ 1); [apply push_act_con|reflexivity].
Qed.

Section Blind.
Variables (g : general) (rows : list svec).
Lemma blind_counters j d : blind (fun s => update_activity_counters g s j d).
Proof.
  unfold update_activity_counters. split.
  - intros qb s. change (active_column g (i_c (set_qb qb s)) j) with (active_column g (i_c s) j). apply (proj1 (blind_fold _ (blind_lower_counter d) (active_column g (i_c s) j))).
  - intros s s'. apply (proj2 (blind_fold _ (blind_lower_counter d) (active_column g (i_c s) j))).
Qed.
Lemma shift_qb d ch qb s e : shift_activity d ch (set_qb qb s) e = set_qb qb (shift_activity d ch s e) /\ c_con (i_c (shift_activity d ch s e)) = c_con (i_c s).
Proof.
  destruct e as [i c]. unfold shift_activity. cbn [set_qb with_q i_c i_act]. destruct (con_active (i_c s) i); [|now split].
  destruct (side (bmul d c) (nth i (i_act s) (None, None))); [|now split]. split; [|now rewrite push_act_con].
  apply (push_act_qb qb (with_act s _)).
Qed.
Lemma shifts_qb d ch qb : forall l s, fold_left (shift_activity d ch) l (set_qb qb s) = set_qb qb (fold_left (shift_activity d ch) l s) /\
  c_con (i_c (fold_left (shift_activity d ch) l s)) = c_con (i_c s).
Proof.
  induction l as [|e l IH]; intros s; cbn [fold_left]; [now split|]. destruct (shift_qb d ch qb s e) as [E1 E2]. rewrite E1. destruct (IH (shift_activity d ch s e)) as [I1 I2].
  split; [assumption|congruence].
Qed.
Lemma blind_apply_change j d ch : blind (fun s => apply_change g s j d ch).
Proof.
  assert (P : blind (fun s => Go (match fixed_value g (i_u s) j with Some _ => if var_active (i_c s) j then push_sub s j else s | None => s end))).
  { apply blind_go.
    - intros qb s. cbn [set_qb with_q i_u i_c]. destruct (fixed_value g (i_u s) j); [|reflexivity]. destruct (var_active (i_c s) j); reflexivity.
    - intros s. destruct (fixed_value g (i_u s) j); [|reflexivity]. destruct (var_active (i_c s) j); reflexivity. }
  destruct ch as [| |x]; unfold apply_change, after_bound_change.
  - now apply blind_go.
  - exact (blind_bind _ _ P (blind_counters j d)).
  - refine (blind_bind _ _ P (_ : blind (fun s => Go (update_activity_bounds g s j d x)))). unfold update_activity_bounds. apply blind_go.
    + intros qb s. apply (shifts_qb d x qb (active_column g (i_c s) j)).
    + intros s. apply (shifts_qb d x [] (active_column g (i_c s) j)).
Qed.
Lemma blind_queue_variable j : blind (fun s => queue_variable g s j).
Proof.
  split.
  - intros qb s. unfold queue_variable. cbn [set_qb with_q i_u i_c]. destruct (nth j (c_var (i_c s)) 0%nat) as [|[|k]].
    + destruct (qzero (v_cost (gvar g j))).
      * destruct (feasible_value g (i_u s) j); reflexivity.
      * destruct (optimize_column g (v_cost (gvar g j)) (bound_of g (i_u s) j Lower) (bound_of g (i_u s) j Upper)); reflexivity.
    + destruct (qzero (v_cost (gvar g j))); reflexivity.
    + reflexivity.
  - intros s s'. unfold queue_variable. destruct (nth j (c_var (i_c s)) 0%nat) as [|[|k]].
    + destruct (qzero (v_cost (gvar g j))).
      * destruct (feasible_value g (i_u s) j); cbn; try discriminate. intros E. now injection E as <-.
      * destruct (optimize_column g (v_cost (gvar g j)) (bound_of g (i_u s) j Lower) (bound_of g (i_u s) j Upper)); cbn; try discriminate. intros E. now injection E as <-.
    + intros E. injection E as <-. destruct (qzero (v_cost (gvar g j))); reflexivity.
    + intros E. now injection E as <-.
Qed.
(** the second half of the rule for bound constraints *)
Definition enter_all (j : nat) (changes : list (bdir * Qc)) (s : pindex) : pr pindex :=
  let+ s := foldP (fun s '(d, x) => let (u, change) := update_bound g (i_u s) j d x in apply_change g (with_u s u) j d change) changes s in
  match feasible_value g (i_u s) j with None => Stop VInfeasible | Some _ => queue_variable g s j end.
Lemma blind_enter_all j changes : blind (enter_all j changes).
Proof.
  unfold enter_all. apply (blind_bind (fun s => foldP (fun s '(d, x) => let (u, change) := update_bound g (i_u s) j d x in apply_change g (with_u s u) j d change) changes s)
     (fun s => match feasible_value g (i_u s) j with None => Stop VInfeasible | Some _ => queue_variable g s j end)).
  - apply blind_fold. intros [d x]. split.
    + intros qb s. change (i_u (set_qb qb s)) with (i_u s). destruct (update_bound g (i_u s) j d x) as [u ch]. apply (proj1 (blind_apply_change j d ch) qb (with_u s u)).
    + intros s s'. destruct (update_bound g (i_u s) j d x) as [u ch]. intros E. apply (proj2 (blind_apply_change j d ch)) in E. exact E.
  - split.
    + intros qb s. change (i_u (set_qb qb s)) with (i_u s). destruct (feasible_value g (i_u s) j); [apply (proj1 (blind_queue_variable j))|reflexivity].
    + intros s s'. destruct (feasible_value g (i_u s) j); [apply (proj2 (blind_queue_variable j))|discriminate].
Qed.
Lemma bound_rule_qb qb s i : bound_constraint_rule g rows (set_qb qb s) i = pmap (set_qb qb) (bound_constraint_rule g rows s i).
Proof.
  unfold bound_constraint_rule. change (active_row rows (i_c (set_qb qb s)) i) with (active_row rows (i_c s) i). change (i_u (set_qb qb s)) with (i_u s).
  destruct (hd_error (active_row rows (i_c s) i)) as [[j c]|]; cbn [unwrap pbind]; [|reflexivity].
  rewrite (proj1 (blind_dec_var j) qb s). destruct (dec_var s j) as [s1| | |]; cbn [pmap pbind]; try reflexivity.
  unfold dec_con. change (i_c (set_qb qb s1)) with (i_c s1). destruct (dec (c_con (i_c s1)) i); cbn [pbind]; try reflexivity.
  apply (proj1 (blind_enter_all j (bounds_from (b_of g (i_u s) i) (type_of g (i_u s) i) c)) qb (mark_constraint (with_c s1 _) i)).
Qed.
Lemma bound_rule_row s i s' : (i < length (c_con (i_c s)))%nat -> cc s i = 1%nat -> bound_constraint_rule g rows s i = Go s' -> cc s' i = 0%nat.
Proof.
  intros L C1. unfold bound_constraint_rule. destruct (hd_error (active_row rows (i_c s) i)) as [[j c]|]; cbn [unwrap pbind]; [|discriminate].
  intros E. apply pbind_go in E. destruct E as (s1 & E1 & E). apply pbind_go in E. destruct E as (s2 & E2 & E).
  apply (proj2 (blind_dec_var j)) in E1.
  assert (X : enter_all j (bounds_from (b_of g (i_u s) i) (type_of g (i_u s) i) c) (mark_constraint s2 i) = Go s') by exact E. apply (proj2 (blind_enter_all _ _)) in X.
  unfold cc in *. rewrite X. cbn. unfold dec_con in E2. apply pbind_go in E2. destruct E2 as (l & E2 & E3). injection E3 as <-. cbn. unfold dec in E2. rewrite E1, C1 in E2. injection E2 as <-.
  apply nth_upd_self. assumption.
Qed.
End Blind.

Section Loop.
Variables (g : general) (rows : list svec).
Local Notation n := (nr_vars g).
Local Notation m := (g_rows g).
Local Notation step := (step g rows).
Local Notation feas := (feas g rows).
Local Notation implied := (implied g rows).
Local Notation tidy := (tidy g rows).
Local Notation verdict_holds := (verdict_holds g rows).
Hypothesis M : matrix_ok g rows.
Hypothesis from_id : forall k, (k < n)%nat -> nth k (g_from g) 0%nat = k.

(** ** The queues *)
Lemma drain_spec {A} (p : A -> bool) l : match drain p l with
  | (Some x, t) => p x = true /\ exists pre, l = pre ++ x :: t /\ forall y, In y pre -> p y = false
  | (None, t) => t = [] /\ forall y, In y l -> p y = false
  end.
Proof.
  induction l as [|a l IH]; cbn [drain]; [now split|]. destruct (p a) eqn:E.
  - split; [assumption|]. exists []. now split.
  - destruct (drain p l) as [[x|] t].
    + destruct IH as (P & pre & -> & H). split; [assumption|]. exists (a :: pre). split; [reflexivity|]. intros y [<-|Y]; auto.
    + destruct IH as [-> H]. split; [reflexivity|]. intros y [<-|Y]; auto.
Qed.
(** a smaller queue *)
Lemma tidy_queues s q : tidy nobody s -> (forall i, cc s i = 1%nat -> In i (q_bound q)) -> incl (q_sub q) (q_sub (i_q s)) -> incl (q_bound q) (q_bound (i_q s)) ->
  incl (q_slack q) (q_slack (i_q s)) -> incl (q_act q) (q_act (i_q s)) -> tidy nobody (with_q s q).
Proof.
  intros [H1 H2 H3 H4 H5 H6 H7 H8 H9 H10 H11 H12 H13 H14 H15] B I1 I2 I3 I4. constructor; try assumption; cbn [with_q i_q i_c i_u].
  - intros i Hi. apply H9. now apply I2.
  - intros i Hi. apply H10. now apply I3.
  - intros i Hi. apply H11. now apply I1.
  - destruct H15 as [X1 X2 X3 X4 X5]. constructor; try assumption. intros i d Hi. apply X5. now apply I4.
Qed.
Lemma domains_left_ok s : tidy nobody s -> domains_left g s = true -> domains g s.
Proof.
  intros T H j Cj. unfold domains_left in H. rewrite forallb_forall in H. specialize (H j).
  assert (L : In j (range 0 (length (g_vars g)))) by (apply In_range; pose proof (cv_lt _ _ _ _ _ T Cj) as L; unfold nr_vars in L; lia).
  specialize (H L). apply (on_var_cv s) in Cj. cbn in Cj. rewrite Cj in H. cbn in H. unfold has_value in H. destruct (feasible_value g (i_u s) j); [discriminate|discriminate].
Qed.
Lemma slack_left_ok s j : slack_left g s j = true -> slack_entry_sound g s j.
Proof. intros H i c Hc. unfold slack_left in H. rewrite forallb_forall in H. exact (H (i, c) Hc). Qed.

(** ** What the bounds found by propagation rest on *)
Definition in_support (l : list nat) (i : nat) : bool := memb i l.
Definition supported (sup : supports) (s : pindex) : Prop := forall j e v, on_var (view_of s) j = true -> u_acts (i_u s) j e = Some v ->
  forall x, feas (cut (in_support (rests_on sup j e)) (view_of s)) x -> bound_holds e v (x j).
Lemma supported_start s : (forall j e, u_acts (i_u s) j e = None) -> supported [] s.
Proof using. intros H j e v _ E. rewrite H in E. discriminate. Qed.
Lemma memb_In i l : memb i l = true <-> In i l.
Proof using. unfold memb. rewrite existsb_exists. split; [intros (y & H & E); apply Nat.eqb_eq in E; now subst|intros H; exists i; split; [assumption|apply Nat.eqb_refl]]. Qed.
Lemma join_In l k i : In i (join l k) <-> In i l \/ In i k.
Proof using.
  unfold join. rewrite in_app_iff, filter_In. split; [tauto|]. intros [H|H]; [now left|]. destruct (memb i l) eqn:E; [left; now apply memb_In|right; now split].
Qed.
Lemma row_support_In s sup i d j c : In (j, c) (active_row rows (i_c s) i) -> u_acts (i_u s) j (bmul d c) <> None ->
  incl (rests_on sup j (bmul d c)) (row_support rows s sup i d).
Proof using.
  unfold row_support. intros H N.
  assert (X : forall L l, (incl l (fold_left (fun l '(j, c) => match u_acts (i_u s) j (bmul d c) with None => l | Some _ => join l (rests_on sup j (bmul d c)) end) L l)) /\
    (In (j, c) L -> incl (rests_on sup j (bmul d c)) (fold_left (fun l '(j, c) => match u_acts (i_u s) j (bmul d c) with None => l | Some _ => join l (rests_on sup j (bmul d c)) end) L l))).
  { induction L as [|[j' c'] L IH]; intros l; cbn [fold_left]; [split; [apply incl_refl|intros []]|].
    destruct (IH (match u_acts (i_u s) j' (bmul d c') with None => l | Some _ => join l (rests_on sup j' (bmul d c')) end)) as [I1 I2]. split.
    - intros k Hk. apply I1. destruct (u_acts (i_u s) j' (bmul d c')); [apply join_In; now left|assumption].
    - intros [E|E]; [|now apply I2]. injection E as -> ->. intros k Hk. apply I1. destruct (u_acts (i_u s) j (bmul d c)); [apply join_In; now right|congruence]. }
  now apply X.
Qed.
Lemma support_half s sup i d x : supported sup s -> feas (cut (in_support (row_support rows s sup i d)) (view_of s)) x ->
  half_within g (i_u s) d (active_row rows (i_c s) i) x.
Proof using M.
  intros S F j c H. split; [apply active_row_In in H; destruct H as [H _]; apply (mo_in _ _ M) in H; now apply (mo_nz _ _ M) in H|].
  assert (O : on_var (view_of s) j = true) by (apply on_var_cv; now apply active_row_In in H).
  rewrite bound_of_cases. destruct (u_acts (i_u s) j (bmul d c)) as [v|] eqn:A.
  - intros v' E. injection E as <-. apply (S j (bmul d c) v O A). apply (feas_cut_less g rows _ _ (in_support (row_support rows s sup i d))); [|assumption].
    intros k Hk. apply memb_In. apply memb_In in Hk. apply (row_support_In s sup i d j c H); [congruence|assumption].
  - intros v E. destruct F as [F1 _]. exact (F1 j O (bmul d c) v E).
Qed.

(** the sets of rows that keep what follows from them, and the rows that new bounds follow from *)
Definition closed_sets (s : pindex) (sup : supports) (D : nat -> bool) : Prop :=
  match reason g rows s sup with
  | Some (i, weaker, support) => weaker = true -> D i = true -> forall k, In k support -> D k = true
  | None => True
  end.
Definition known_rows (s : pindex) (sup : supports) : nat -> bool :=
  match reason g rows s sup with Some (i, _, support) => in_support (i :: support) | None => fun _ => false end.
Lemma closed_known s sup : closed_sets s sup (known_rows s sup).
Proof using.
  unfold closed_sets, known_rows. destruct (reason g rows s sup) as [[[i w] E]|]; [|exact Logic.I]. intros _ _ k Hk. apply memb_In. now right.
Qed.
Lemma same_bound_ok a b : same_bound a b = true <-> a = b.
Proof using.
  unfold same_bound. destruct a as [a|], b as [b|]; split; try discriminate; try reflexivity; intros H.
  - qb. now subst.
  - injection H as ->. now apply qeqb_true.
Qed.
Lemma next_rests s sup s' j e : (j < n)%nat ->
  rests_on (next_supports g rows s sup s') j e = next_support (reason g rows s sup) (same_bound (u_acts (i_u s) j e) (u_acts (i_u s') j e)) (rests_on sup j e).
Proof using.
  intros L. unfold rests_on at 1, next_supports. cbv zeta. set (f := fun j => (_, _)).
  assert (X : nth j (map f (range 0 (length (g_vars g)))) ([], []) = f j).
  { rewrite (nth_indep _ _ (f 0%nat)) by (rewrite map_length; unfold range; rewrite seq_length; unfold nr_vars in L; lia).
    rewrite map_nth. unfold range. rewrite seq_nth; [reflexivity|]. unfold nr_vars in L. lia. }
  rewrite X. unfold f. now destruct e.
Qed.
Lemma supported_next s sup s' : supported sup s -> @good g rows (closed_sets s sup) (known_rows s sup) s s' -> supported (next_supports g rows s sup s') s'.
Proof using M.
  intros S (T & [ST R] & _ & FD) j e v O A x F.
  assert (L : (j < n)%nat) by (apply (cv_lt _ _ _ _ _ T); now apply on_var_cv).
  rewrite (next_rests s sup s' j e L) in F. unfold next_support in F.
  destruct (same_bound (u_acts (i_u s) j e) (u_acts (i_u s') j e)) eqn:SB.
  - apply same_bound_ok in SB. rewrite A in SB.
    set (l := match reason g rows s sup with Some (i, weaker, support) => if weaker && memb i (rests_on sup j e) then join (rests_on sup j e) support else rests_on sup j e | None => rests_on sup j e end).
    assert (F' : feas (cut (in_support l) (view_of s')) x) by (unfold l; destruct (reason g rows s sup) as [[[i w] E]|]; exact F). clear F.
    assert (CL : closed_sets s sup (in_support l)).
    { unfold closed_sets, l. destruct (reason g rows s sup) as [[[i w] E]|]; [|exact Logic.I]. intros -> H k Hk. unfold in_support in *. cbn [andb] in *. apply memb_In.
      destruct (memb i (rests_on sup j e)) eqn:MB; [apply join_In; now right|congruence]. }
    assert (LE : incl (rests_on sup j e) l).
    { unfold l. destruct (reason g rows s sup) as [[[i w] E]|]; [|apply incl_refl]. destruct (w && memb i (rests_on sup j e)); [|apply incl_refl]. intros k Hk. apply join_In. now left. }
    destruct (R _ CL x F') as (y & FY & EY). rewrite <- (EY j O).
    apply (S j e v (st_less _ _ _ _ ST j O) SB). apply (feas_cut_less g rows _ _ (in_support l)); [|assumption]. intros k Hk. apply memb_In. apply LE. now apply memb_In.
  - destruct (FD j e v O A) as [X|X].
    + exfalso. assert (Y : same_bound (u_acts (i_u s) j e) (u_acts (i_u s') j e) = true) by (apply same_bound_ok; congruence). congruence.
    + apply X. unfold known_rows. destruct (reason g rows s sup) as [[[i w] E]|]; [exact F|]. apply (feas_cut_less g rows _ _ (in_support [])); [|exact F]. intros k Hk. discriminate.
Qed.
Lemma propagation_safe_ok s sup i d : supported sup s -> next_action s = Propagate i d -> propagation_safe g rows s sup i d = true ->
  @domain_sound g rows (closed_sets s sup) (known_rows s sup) s i d.
Proof.
  unfold propagation_safe, domain_sound. fold (ca s i d). intros S NA H.
  assert (RE : reason g rows s sup = Some (i, weakens g rows s i d, row_support rows s sup i d)) by (unfold reason; now rewrite NA).
  split.
  - unfold known_rows. rewrite RE. split; [apply memb_In; now left|]. intros x F. apply (support_half s sup i d x S). apply (feas_cut_less g rows _ _ (in_support (i :: row_support rows s sup i d))); [|assumption].
    intros k Hk. apply memb_In. right. now apply memb_In.
  - intros Z. rewrite Z in H. apply andb_true_iff in H. destruct H as [H1 H2]. split.
    + intros x K. unfold activity_right in H1. fold (cache s i d) in H1. rewrite K in H1. destruct (activity_sum _ _ _ _); try discriminate. qb. now subst.
    + intros a E. unfold decision_safe in H2. apply andb_true_iff in H2. destruct H2 as [H2 H3]. rewrite E in H3.
      assert (B : weakens g rows s i d = true -> @backed g rows (closed_sets s sup) s i d).
      { intros W. rewrite W in H2. cbn [negb orb] in H2. apply negb_true_iff in H2. exists (in_support (row_support rows s sup i d)). split; [exact H2|]. split.
        - intros x F. now apply (support_half s sup i d x).
        - intros D CD Di k Hk. unfold closed_sets in CD. rewrite RE in CD. apply CD; [assumption|assumption|]. now apply memb_In. }
      unfold weakens in B. rewrite E in B. destruct (decide _ _ _ _) as [[[| |]|]|v| |]; try exact Logic.I; try discriminate; now apply B.
Qed.

(** ** One step *)
Lemma presolve_step_good s sup : tidy nobody s -> implied (view_of s) -> supported sup s -> domains g s -> step_safe g rows s sup = true ->
  pspec (presolve_step g rows s) (fun r => @good g rows (closed_sets s sup) (known_rows s sup) s (fst r)) (verdict_holds (view_of s)) False.
Proof.
  intros T I S D SS. pose proof (eq_refl (next_action s)) as NA. unfold next_action at 2 in NA. unfold presolve_step. unfold step_safe, next_action in SS.
  pose proof (closed_known s sup) as CK. set (Cl := closed_sets s sup) in *. set (Kn := known_rows s sup) in *. set (q := i_q s) in *.
  set (sub := match q_sub q with [] => (None, []) | j :: t => _ end).
  assert (SUB : fst sub = match q_sub q with [] => None | j :: _ => if var_active (i_c s) j then Some j else None end) by (unfold sub; destruct (q_sub q); reflexivity).
  assert (INC : incl (snd sub) (q_sub q)) by (unfold sub; destruct (q_sub q) as [|j t]; cbn [snd]; [apply incl_refl|apply incl_tl, incl_refl]).
  rewrite <- SUB in SS, NA. destruct (fst sub) as [j|] eqn:FS.
  { (* a fixed variable *)
    assert (J : In j (q_sub q) /\ cv s j <> 0%nat).
    { destruct (q_sub q) as [|k t]; [discriminate|]. destruct (var_active (i_c s) k) eqn:V; [|discriminate]. injection SUB as ->. split; [now left|]. now apply (on_var_cv s). }
    destruct J as [J1 J2]. eapply pspec_bind; [apply (fixed_variable_rule_spec g rows (Cl:=Cl) (Kn:=Kn) M (with_q s _) j)|].
    - apply tidy_queues; try assumption; try apply incl_refl. apply (td_bq _ _ _ _ T).
    - exact I.
    - exact D.
    - apply (td_sub _ _ _ _ T). exact J1.
    - exact J2.
    - intros s' G. exact G. }
  pose proof (drain_spec (con_active (i_c s)) (q_bound q)) as DB. destruct (drain (con_active (i_c s)) (q_bound q)) as [[i|] tb] eqn:EB; cbn [fst snd] in *.
  { (* a bound *)
    destruct DB as (Oi & pre & QB & PRE). apply (on_row_cc s) in Oi.
    assert (C1 : cc s i = 1%nat) by (assert (In i (q_bound q)) by (rewrite QB; apply in_or_app; right; now left); pose proof (td_bq' _ _ _ _ T i H); lia).
    set (s0 := with_q s (mk_queues (snd sub) (i :: tb) (q_slack q) (q_act q))).
    change (with_q s (mk_queues (snd sub) tb (q_slack q) (q_act q))) with (set_qb tb s0).
    assert (T0 : tidy nobody s0).
    { apply tidy_queues; try assumption; cbn [q_sub q_bound q_slack q_act]; try apply incl_refl.
      - intros k Ck. pose proof (td_bq _ _ _ _ T k Ck) as H. fold q in H. rewrite QB in H. apply in_app_or in H. destruct H as [H|H]; [|exact H].
        apply PRE in H. apply (on_row_false s) in H. rewrite H in Ck. discriminate.
      - fold q. rewrite QB. apply incl_appr, incl_refl. }
    rewrite bound_rule_qb. unfold pmap.
    pose proof (bound_constraint_rule_spec g rows (Cl:=Cl) (Kn:=Kn) M s0 i T0 I C1) as P.
    destruct (bound_constraint_rule g rows s0 i) as [s'|v| |] eqn:E; cbn [pbind pspec fst] in *; try assumption.
    assert (QS : q_bound (i_q s') = i :: tb).
    { pose proof (bound_rule_qb g rows (i :: tb) s0 i) as Q. change (set_qb (i :: tb) s0) with s0 in Q. rewrite E in Q. cbn in Q. injection Q as Q. rewrite Q. reflexivity. }
    assert (Z : cc s' i = 0%nat).
    { apply (bound_rule_row g rows s0 i s'); [|exact C1|exact E]. change (i_c s0) with (i_c s). rewrite (td_nc _ _ _ _ T). now apply (cc_lt _ _ _ _ _ T). }
    destruct P as (P1 & P2). split; [|exact P2].
    unfold set_qb. apply tidy_queues; try assumption; cbn [q_sub q_bound q_slack q_act]; try apply incl_refl.
    - intros k Ck. pose proof (td_bq _ _ _ _ P1 k Ck) as H. rewrite QS in H. destruct H as [<-|H]; [congruence|exact H].
    - rewrite QS. apply incl_tl, incl_refl. }
  destruct DB as [-> DB].
  assert (NB : forall k, cc s k <> 1%nat).
  { intros k Ck. pose proof (td_bq _ _ _ _ T k Ck) as H. apply DB in H. apply (on_row_false s) in H. rewrite H in Ck. discriminate. }
  pose proof (drain_spec (var_active (i_c s)) (q_slack q)) as DS. destruct (drain (var_active (i_c s)) (q_slack q)) as [[j|] ts] eqn:ES; cbn [fst snd] in *.
  { (* a slack variable *)
    destruct DS as (Oj & pre & QS & PRE). apply (on_var_cv s) in Oj.
    assert (IJ : In j (q_slack q)) by (rewrite QS; apply in_or_app; right; now left). destruct (td_sq _ _ _ _ T j IJ) as [C1 CZ].
    eapply pspec_bind; [apply (slack_rule_spec g rows (Cl:=Cl) (Kn:=Kn) M from_id (with_q s _) j)|].
    - apply tidy_queues; try assumption; cbn [q_sub q_bound q_slack q_act]; try apply incl_refl.
      + intros x [].
      + fold q. rewrite QS. apply incl_appr, incl_tl, incl_refl.
    - exact I.
    - exact D.
    - change (cv s j = 1%nat). lia.
    - assumption.
    - exact NB.
    - now apply (slack_left_ok s).
    - intros s' G. exact G. }
  destruct DS as [-> DS].
  pose proof (drain_spec (fun e : nat * bdir => con_active (i_c s) (fst e)) (q_act q)) as DA.
  destruct (drain (fun e : nat * bdir => con_active (i_c s) (fst e)) (q_act q)) as [[[i d]|] ta] eqn:EA; cbn [fst snd] in *.
  - (* propagation *)
    destruct DA as (Oi & pre & QA & PRE). apply (on_row_cc s) in Oi.
    assert (IA : In (i, d) (q_act q)) by (rewrite QA; apply in_or_app; right; now left).
    apply (domain_propagation_rule_spec g rows (Cl:=Cl) (Kn:=Kn) M CK (with_q s _) i d).
    + apply tidy_queues; try assumption; cbn [q_sub q_bound q_slack q_act]; try apply incl_refl.
      * intros x [].
      * intros x [].
      * fold q. rewrite QA. apply incl_appr, incl_tl, incl_refl.
    + exact I.
    + exact D.
    + exact Oi.
    + apply (ao_queue _ _ _ (td_acts _ _ _ _ T) i d IA Oi).
    + now apply (propagation_safe_ok s sup).
  - destruct DA as [-> DA]. cbn [pspec fst]. split; [|split; [apply cstep_refl|split; [exact I|now apply found_same]]].
    apply tidy_queues; try assumption; cbn [q_sub q_bound q_slack q_act]; intros x [].
Qed.

(** what is needed of a step afterwards *)
Definition well (s s' : pindex) : Prop := tidy nobody s' /\ step (view_of s) (view_of s') /\ implied (view_of s').
Lemma well_refl s : tidy nobody s -> implied (view_of s) -> well s s.
Proof using. intros T I. split; [assumption|]. split; [apply step_refl|assumption]. Qed.
Lemma presolve_step_spec s sup : tidy nobody s -> implied (view_of s) -> supported sup s -> domains g s -> step_safe g rows s sup = true ->
  pspec (presolve_step g rows s) (fun r => well s (fst r) /\ supported (next_supports g rows s sup (fst r)) (fst r)) (verdict_holds (view_of s)) False.
Proof using M from_id.
  intros T I S D SS. eapply pspec_impl; [apply (presolve_step_good s sup T I S D SS)| |auto|auto].
  intros [s' ch] G. cbn [fst] in *. split; [|now apply supported_next]. destruct G as (G1 & [G2 _] & G3 & _). split; [assumption|]. now split.
Qed.

(** ** The loop *)
Lemma nr_remaining_go s : tidy nobody s -> exists r, nr_remaining g (i_u s) = Go r.
Proof.
  intros T. unfold nr_remaining.
  assert (L1 : (length (u_removed (i_u s)) <= length (g_vars g))%nat).
  { rewrite <- (map_length fst). rewrite <- (seq_length (length (g_vars g)) 0). apply NoDup_incl_length; [apply (td_rem_nd _ _ _ _ T)|]. intros j Hj. apply (td_rem _ _ _ _ T) in Hj. apply in_seq. unfold nr_vars in Hj. lia. }
  assert (L2 : (length (u_gone (i_u s)) <= m)%nat).
  { rewrite <- (seq_length m 0). apply NoDup_incl_length; [apply (td_gone_nd _ _ _ _ T)|]. intros j Hj. apply (td_gone _ _ _ _ T) in Hj. apply in_seq. lia. }
  destruct (Nat.ltb_spec (length (g_vars g)) (length (u_removed (i_u s)))); [lia|]. destruct (Nat.ltb_spec m (length (u_gone (i_u s)))); [lia|]. cbn. now eexists.
Qed.
Lemma presolve_loop_spec : forall fuel stale sup s, tidy nobody s -> implied (view_of s) -> supported sup s -> safe_loop g rows fuel stale sup s = true ->
  match presolve_loop g rows fuel stale s with
  | Go s' => well s s' /\ domains g s'
  | Stop v => verdict_holds (view_of s) v
  | PPanic => False
  | PFuel => True
  end.
Proof.
  induction fuel as [|fuel IH]; intros stale sup s T I S SL; cbn [safe_loop presolve_loop] in *; apply andb_true_iff in SL; destruct SL as [DL SL];
    pose proof (domains_left_ok s T DL) as D; (destruct (queues_empty (i_q s)); [split; [now apply well_refl|assumption]|]);
    destruct (nr_remaining_go s T) as [r Er]; rewrite Er in *; cbn [pbind]; (destruct (Nat.leb r stale); [split; [now apply well_refl|assumption]|]).
  - exact Logic.I.
  - apply andb_true_iff in SL. destruct SL as [SS SL]. pose proof (presolve_step_spec s sup T I S D SS) as P.
    destruct (presolve_step g rows s) as [[s' ch]|v| |]; cbn [pspec pbind fst snd] in *; try assumption; [|contradiction].
    destruct P as ((P1 & P2 & P3) & PS).
    assert (X : forall st, safe_loop g rows fuel st (next_supports g rows s sup s') s' = true -> match presolve_loop g rows fuel st s' with
      | Go s' => well s s' /\ domains g s' | Stop v => verdict_holds (view_of s) v | PPanic => False | PFuel => True end).
    { intros st SL'. specialize (IH st _ s' P1 P3 PS SL'). destruct (presolve_loop g rows fuel st s') as [s2|v| |]; try assumption.
      - destruct IH as [(Q1 & Q2 & Q3) Q4]. split; [|assumption]. split; [assumption|]. split; [|assumption]. exact (step_trans g rows _ _ _ P2 Q2).
      - exact (verdict_step g rows _ _ _ P2 IH). }
    destruct ch; now apply X.
Qed.
End Loop.
