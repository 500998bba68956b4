(** * Presolving a network program with whole numbers: all numbers stay whole *)
From Verif Require Import PreOrder PreTerm StandardP SpecVertex.
From Verif Require Import SpecWhole Whole WholeP WholeG WholeS.
Local Open Scope Qc_scope.

Lemma gives_fold_in {A B} (f : A -> B -> pr A) (P : A -> Prop) l : forall a, P a -> (forall a b, In b l -> P a -> gives (f a b) P) -> gives (foldP f l a) P.
Proof.
  induction l as [|b l IH]; intros a H K; cbn; [now apply gives_go|]. eapply gives_bind; [apply K; [now left|exact H]|].
  intros a' H'. apply IH; [exact H'|]. intros a2 b2 I. apply K. now right.
Qed.
Lemma gives_unwrap {A} (o : option A) (Q : A -> Prop) : (forall a, o = Some a -> Q a) -> gives (unwrap o) Q.
Proof. intros H a E. destruct o; [injection E as <-; now apply H|discriminate]. Qed.
Lemma whole_by_unit c x : unit_value c -> whole x -> whole (c * x).
Proof. intros [-> | [-> | ->]] W; [replace (0 * x) with 0 by ring; exact whole_0|now replace (1 * x) with x by ring|replace (- (1) * x) with (- x) by ring; now apply whole_opp]. Qed.
Lemma unit_inverse c : unit_value c -> unit_value (/ c).
Proof.
  intros [-> | [-> | ->]]; [left|right; left|right; right]; apply Qc_is_canon; reflexivity.
Qed.
Lemma whole_over_unit c x : unit_value c -> whole x -> whole (x / c).
Proof. intros U W. unfold Qcdiv. rewrite Qcmult_comm. apply whole_by_unit; [now apply unit_inverse|exact W]. Qed.
Lemma unit_by_unit a c : unit_value a -> unit_value c -> unit_value (a * c).
Proof. intros [-> | [-> | ->]] U; [left; ring|now replace (1 * c) with c by ring|replace (- (1) * c) with (- c) by ring; now apply unit_opp]. Qed.
Lemma unit_over_unit a c : unit_value a -> unit_value c -> unit_value (a / c).
Proof. intros A C. apply unit_by_unit; [exact A|now apply unit_inverse]. Qed.

(** what is recorded of a variable that was removed *)
Definition tidy (r : removed) : Prop :=
  match r with Solved v => whole v | FunctionOf c l => whole c /\ forall k a, In (k, a) l -> unit_value a end.

Section Even.
Variables (g : general) (rows : list svec).
Hypothesis Wb : forall i, whole (nthq (g_b g) i).
Hypothesis Wt : forall i r, nth i (g_types g) Equal = Range r -> whole r.
Hypothesis Wv : forall j d x, vbound (gvar g j) d = Some x -> whole x.
Hypothesis Wc : forall j i c, In (i, c) (nth j (g_cols g) []) -> unit_value c.
Hypothesis Wr : forall i j c, In (j, c) (nth i rows []) -> unit_value c.

Record even_u (u : updates) : Prop := mk_even_u {
  ev_b : forall i, whole (b_of g u i);
  ev_t : forall i r, type_of g u i = Range r -> whole r;
  ev_bounds : forall j d x, u_bounds u j d = Some x -> whole x;
  ev_acts : forall j d x, u_acts u j d = Some x -> whole x;
  ev_removed : forall j r, In (j, r) (u_removed u) -> tidy r }.
Record even (s : pindex) : Prop := mk_even {
  ev_u : even_u (i_u s);
  ev_act : forall i d x, side d (nth i (i_act s) (None, None)) = Some x -> whole x }.
Local Notation G := even.
Lemma even_same s s' : i_u s' = i_u s -> i_act s' = i_act s -> G s -> G s'.
Proof. intros E1 E2 [A B]. split; rewrite ?E1, ?E2; assumption. Qed.
Ltac same := eapply even_same; [| |eassumption]; reflexivity.
Lemma even_with s u : even_u u -> G s -> G (with_u s u).
Proof. intros U [_ B]. split; assumption. Qed.
Lemma bound_whole u j d x : even_u u -> bound_of g u j d = Some x -> whole x.
Proof.
  intros U. unfold bound_of. destruct (u_acts u j d) as [y|] eqn:E1; [intros [= <-]; exact (ev_acts _ U _ _ _ E1)|].
  destruct (u_bounds u j d) as [y|] eqn:E2; [intros [= <-]; exact (ev_bounds _ U _ _ _ E2)|]. apply Wv.
Qed.
Lemma fixed_whole u j x : even_u u -> fixed_value g u j = Some x -> whole x.
Proof.
  intros U. unfold fixed_value. destruct (bound_of g u j Lower) as [l|] eqn:L; [|discriminate]. destruct (bound_of g u j Upper) as [h|]; [|discriminate].
  destruct (qeqb l h); [|discriminate]. intros [= <-]. exact (bound_whole u j Lower l U L).
Qed.
Lemma feasible_whole u j x : even_u u -> feasible_value g u j = Some x -> whole x.
Proof.
  intros U. unfold feasible_value. destruct (bound_of g u j Lower) as [l|] eqn:L; destruct (bound_of g u j Upper) as [h|] eqn:H; try (destruct (qleb l h); [|discriminate]); intros [= <-];
    first [exact whole_0|exact (bound_whole u j Lower _ U L)|exact (bound_whole u j Upper _ U H)].
Qed.
Lemma optimize_whole cost l h : (forall x, l = Some x -> whole x) -> (forall x, h = Some x -> whole x) -> gives (optimize_column g cost l h) whole.
Proof.
  intros L H. unfold optimize_column. destruct (qzero cost); [apply gives_panic|]. cbv zeta.
  destruct (g_objective g), (qpos cost); (match goal with |- gives (match ?o with _ => _ end) _ => destruct o as [v|] end; [apply gives_go; auto|apply gives_stop]).
Qed.
(** ** Updates *)
Lemma even_set_b u i v : whole v -> even_u u -> even_u (set_b u i v).
Proof.
  intros W U. split; try apply U. intros k. unfold b_of, set_b, put. cbn [u_b]. destruct (Nat.eqb k i); [exact W|apply U].
Qed.
Lemma even_change_b u i v : whole v -> even_u u -> even_u (change_b g u i v).
Proof. intros W U. apply even_set_b; [|exact U]. apply whole_plus; [apply U|exact W]. Qed.
Lemma even_set_type u i t : (forall r, t = Range r -> whole r) -> even_u u -> even_u (set_type u i t).
Proof.
  intros W U. split; try apply U. intros k r. unfold type_of, set_type, put. cbn [u_types]. destruct (Nat.eqb k i); [apply W|apply (ev_t _ U)].
Qed.
Lemma even_add_cost u c : even_u u -> even_u (add_cost u c).
Proof. intros U. split; apply U. Qed.
Lemma even_insert_bound u j d x : whole x -> even_u u -> even_u (insert_bound j d u x).
Proof.
  intros W U. split; try apply U. intros k e y. unfold insert_bound, set_bounds, put2. cbn [u_bounds]. destruct (_ && _); [intros [= <-]; exact W|apply (ev_bounds _ U)].
Qed.
Lemma even_insert_act u j d x : whole x -> even_u u -> even_u (insert_act j d u x).
Proof.
  intros W U. split; try apply U. intros k e y. unfold insert_act, set_acts, put2. cbn [u_acts]. destruct (_ && _); [intros [= <-]; exact W|apply (ev_acts _ U)].
Qed.
Lemma even_remove_act u j d : even_u u -> even_u (remove_act j d u).
Proof.
  intros U. split; try apply U. intros k e y. unfold remove_act, set_acts, put2. cbn [u_acts]. destruct (_ && _); [discriminate|apply (ev_acts _ U)].
Qed.
Lemma even_mark s j r : tidy r -> G s -> G (mark_variable s j r).
Proof.
  intros W [U A]. split; [|exact A]. split; try apply U. cbn [mark_variable with_u i_u u_removed]. intros k r' I. apply in_app_iff in I. destruct I as [I|[[= <- <-]|[]]]; [exact (ev_removed _ U k r' I)|exact W].
Qed.
Lemma even_gone s i : G s -> G (mark_constraint s i).
Proof. intros [U A]. split; [|exact A]. split; apply U. Qed.
Definition even_change (c : bound_change) : Prop := match c with BoundShift x => whole x | _ => True end.
Lemma even_compare u f d new old : whole new -> whole old -> (forall x, whole x -> even_u (f u x)) -> even_u u ->
  even_u (fst (compare_update u f d new old)) /\ even_change (snd (compare_update u f d new old)).
Proof.
  intros N O F U. unfold compare_update. destruct (match d with Lower => _ | Upper => _ end); cbn; [|now split]. split; [now apply F|now apply whole_minus].
Qed.
Lemma even_update u j d new : whole new -> even_u u -> even_u (fst (update_bound g u j d new)) /\ even_change (snd (update_bound g u j d new)).
Proof.
  intros N U. unfold update_bound. destruct (u_bounds u j d) as [y|] eqn:E1; [apply even_compare; auto using even_insert_bound; exact (ev_bounds _ U _ _ _ E1)|].
  destruct (u_acts u j d) as [y|] eqn:E2.
  - pose proof (ev_acts _ U _ _ _ E2) as Y. apply even_compare; auto using even_insert_bound, even_remove_act.
  - destruct (vbound _ _) as [y|] eqn:E3; [apply even_compare; auto using even_insert_bound; exact (Wv _ _ _ E3)|]. cbn. split; [|trivial]. now apply even_insert_bound.
Qed.
Lemma even_update_act u j d new : whole new -> even_u u -> even_u (fst (update_activity_bound g u j d new)) /\ even_change (snd (update_activity_bound g u j d new)).
Proof.
  intros N U. unfold update_activity_bound. destruct (u_acts u j d) as [y|] eqn:E1; [apply even_compare; auto using even_insert_act; exact (ev_acts _ U _ _ _ E1)|].
  destruct (u_bounds u j d) as [y|] eqn:E2; [apply even_compare; auto using even_insert_bound; exact (ev_bounds _ U _ _ _ E2)|].
  destruct (vbound _ _) as [y|] eqn:E3; [apply even_compare; auto using even_insert_act; exact (Wv _ _ _ E3)|]. cbn. split; [|trivial]. now apply even_insert_act.
Qed.
Lemma col_unit c j i a : In (i, a) (active_column g c j) -> unit_value a.
Proof. intros I. apply filter_In in I. exact (Wc j i a (proj1 I)). Qed.
Lemma row_unit c i j a : In (j, a) (active_row rows c i) -> unit_value a.
Proof. intros I. apply filter_In in I. exact (Wr i j a (proj1 I)). Qed.

(** ** The rules *)
Lemma even_dec_var s j : G s -> gives (dec_var s j) G.
Proof. intros H. apply gives_any. intros c. apply gives_go. same. Qed.
Lemma even_dec_con s i : G s -> gives (dec_con s i) G.
Proof. intros H. apply gives_any. intros c. apply gives_go. same. Qed.
Lemma even_dec_act s i d : G s -> gives (dec_act s i d) G.
Proof. intros H. unfold dec_act. destruct (side d _); [apply gives_panic|]. apply gives_go. same. Qed.
Lemma even_push s e : G s -> G (push_act s e).
Proof. intros H. unfold push_act. destruct (queued _ _); [exact H|same]. Qed.
Lemma even_queue_variable s j : G s -> gives (queue_variable g s j) G.
Proof.
  intros H. unfold queue_variable. destruct (nth j _ _) as [|[|k]].
  - destruct (qzero _).
    + eapply gives_bind; [apply gives_unwrap; intros v E; exact (feasible_whole _ j v (ev_u _ H) E)|]. intros v W. apply gives_go. now apply even_mark.
    + eapply gives_bind; [apply optimize_whole; intros v E; exact (bound_whole _ j _ v (ev_u _ H) E)|]. intros v W. apply gives_go. apply even_mark; [exact W|].
      apply even_with; [apply even_add_cost, H|exact H].
  - apply gives_go. destruct (qzero _); [same|assumption].
  - now apply gives_go.
Qed.
Lemma even_queue_constraint s i : G s -> gives (queue_constraint g s i) G.
Proof.
  intros H. unfold queue_constraint. destruct (nth i _ _) as [|[|k]].
  - destruct (empty_feasible _ _); [|apply gives_stop]. apply gives_go. now apply even_gone.
  - apply gives_go. same.
  - now apply gives_go.
Qed.
Lemma upd_past {A} : forall (l : list A) i x, (length l <= i)%nat -> upd l i x = l.
Proof. induction l as [|y l IH]; intros [|i] x L; cbn in *; try reflexivity; [lia|]. rewrite IH by lia. reflexivity. Qed.
Lemma even_upd_act s i d x : whole x -> G s -> G (with_act s (upd (i_act s) i (set_side d (nth i (i_act s) (None, None)) (Some x)))).
Proof.
  intros W [U A]. split; [exact U|]. cbn [with_act i_act]. intros k e y. destruct (Nat.lt_ge_cases i (length (i_act s))) as [L|L]; [|rewrite upd_past by exact L; apply A].
  destruct (Nat.eq_dec k i) as [->|N].
  - rewrite nth_upd_same by exact L. pose proof (A i) as B. destruct (nth i (i_act s) (None, None)) as [lo hi].
      destruct d, e; cbn; try (intros [= <-]; exact W); intros X; [exact (B Upper y X)|exact (B Lower y X)].
  - rewrite nth_upd_other by assumption. apply A.
Qed.
Lemma even_shifts d x es : (forall i c, In (i, c) es -> unit_value c) -> whole x -> forall s, G s -> G (fold_left (shift_activity d x) es s).
Proof.
  intros E W. induction es as [|[i c] es IH]; intros s H; [assumption|]. cbn [fold_left]. apply IH; [intros k a I; apply (E k a); now right|]. unfold shift_activity.
  destruct (con_active _ _); [|assumption]. destruct (side _ _) as [y|] eqn:S; [|assumption]. apply even_push. apply even_upd_act; [|exact H].
  apply whole_plus; [exact (ev_act _ H _ _ _ S)|]. rewrite Qcmult_comm. apply whole_by_unit; [apply (E i c); now left|exact W].
Qed.
Lemma even_counters s j d : G s -> gives (update_activity_counters g s j d) G.
Proof.
  intros H. apply gives_fold; [assumption|]. intros s' [i c] H'. unfold lower_counter. eapply gives_bind; [apply even_dec_act; exact H'|]. intros s2 H2. apply gives_go.
  destruct (Nat.leb _ _); [now apply even_push|assumption].
Qed.
Lemma even_apply s j d c : even_change c -> G s -> gives (apply_change g s j d c) G.
Proof.
  intros EC H. assert (K : forall ch, (forall x, ch = Some x -> whole x) -> gives (after_bound_change g s j d ch) G).
  { intros ch CH. unfold after_bound_change. set (s' := match fixed_value g (i_u s) j with Some _ => _ | None => _ end).
    assert (H' : G s') by (unfold s'; destruct (fixed_value _ _ _); [destruct (var_active _ _); [same|assumption]|assumption]).
    destruct ch as [x|]; [|now apply even_counters]. apply gives_go. apply even_shifts; [|now apply CH|exact H']. intros i a I. exact (col_unit _ _ _ _ I). }
  destruct c; [now apply gives_go|apply K; discriminate|apply K; intros x [= <-]; exact EC].
Qed.
Lemma even_drop s i : G s -> gives (remove_constraint_values g rows s i) G.
Proof.
  intros H. apply gives_fold; [assumption|]. intros s' [j c] H'. eapply gives_bind; [now apply even_dec_con|]. intros s2 H2.
  eapply gives_bind; [now apply even_dec_var|]. intros s3 H3. now apply even_queue_variable.
Qed.
Lemma even_shift_b v es : (forall i c, In (i, c) es -> unit_value c) -> whole v -> forall u, even_u u -> even_u (fold_left (fun u '(i, c) => change_b g u i (- c * v)) es u).
Proof.
  intros E W. induction es as [|[i c] es IH]; intros u U; [exact U|]. cbn [fold_left]. apply IH; [intros k a I; apply (E k a); now right|].
  apply even_change_b; [|exact U]. apply whole_by_unit; [|exact W]. apply unit_opp. apply (E i c). now left.
Qed.
Lemma even_fixed_variable s j : G s -> gives (fixed_variable_rule g s j) G.
Proof.
  intros H. unfold fixed_variable_rule. eapply gives_bind; [apply gives_unwrap; intros v E; exact (fixed_whole _ j v (ev_u _ H) E)|]. intros v W. cbv zeta.
  eapply gives_bind with (Q := G); [|intros s2 H2; apply gives_go; now apply even_mark].
  apply gives_fold.
  - apply even_with; [|exact H]. apply even_add_cost. apply even_shift_b; [|exact W|apply H]. intros i a I. exact (col_unit _ _ _ _ I).
  - intros s' [i c] H'. eapply gives_bind; [now apply even_dec_var|]. intros s2 H2. eapply gives_bind; [now apply even_dec_con|]. intros s3 H3. now apply even_queue_constraint.
Qed.
Lemma even_from b t c : whole b -> (forall r, t = Range r -> whole r) -> unit_value c -> forall d x, In (d, x) (bounds_from b t c) -> whole x.
Proof.
  intros B T C d x I. unfold bounds_from in I. destruct t as [|r| |]; [| destruct (qneg c)| |]; cbn in I; repeat (destruct I as [[= <- <-]|I]); try contradiction; apply whole_over_unit; try exact C; try exact B;
    apply whole_minus; [exact B|now apply T|exact B|now apply T].
Qed.
Lemma hd_In {A} (l : list A) x : hd_error l = Some x -> In x l.
Proof. destruct l; [discriminate|]. intros [= <-]. now left. Qed.
Lemma even_bound_constraint s i : G s -> gives (bound_constraint_rule g rows s i) G.
Proof.
  intros H. unfold bound_constraint_rule. eapply gives_bind with (Q := fun e => unit_value (snd e)); [apply gives_unwrap; intros [j c] E; exact (row_unit _ _ _ _ (hd_In _ _ E))|]. intros [j c] U. cbn [snd] in U.
  pose proof (even_from (b_of g (i_u s) i) (type_of g (i_u s) i) c (ev_b _ (ev_u _ H) i) (ev_t _ (ev_u _ H) i) U) as W. cbv zeta.
  eapply gives_bind; [now apply even_dec_var|]. intros s2 H2.
  eapply gives_bind; [now apply even_dec_con|]. intros s3 H3. eapply gives_bind with (Q := G).
  - apply gives_fold_in; [now apply even_gone|]. intros s' [d x] I H'. destruct (even_update (i_u s') j d x (W d x I) (ev_u _ H')) as [U1 U2].
    destruct (update_bound g (i_u s') j d x) as [u ch]. apply even_apply; [exact U2|]. now apply even_with.
  - intros s4 H4. destruct (feasible_value _ _ _); [now apply even_queue_variable|apply gives_stop].
Qed.
Lemma even_set s i d : G s -> gives (set_to_bound g rows s i d) G.
Proof.
  intros H. unfold set_to_bound. eapply gives_bind with (Q := fun r => G (fst r)).
  - apply gives_fold; [assumption|]. intros [s' todo] [j c] H'. cbn [fst] in H'. eapply gives_bind; [apply gives_unwrap; intros x E; exact (bound_whole _ _ _ x (ev_u _ H') E)|]. intros x W. cbv zeta.
    match goal with |- context [update_bound g ?u j ?d x] => assert (U : even_u u) end.
    { pose proof (ev_acts _ (ev_u _ H') j (bmul d c)) as Y. destruct (u_acts (i_u s') j (bmul d c)) as [y|]; [|apply H']. apply even_insert_bound; [now apply Y|apply even_remove_act, H']. }
    match goal with |- context [update_bound g ?u j ?d x] => destruct (even_update u j d x W U) as [U1 _]; destruct (update_bound g u j d x) as [u' ch] end.
    apply gives_go. cbn [fst]. eapply even_same; [| |apply even_with; [exact U1|exact H']]; reflexivity.
  - intros r H'. apply gives_fold; [assumption|]. intros s2 [j d'] H2. now apply even_counters.
Qed.
Lemma even_variable_part s i rhs a d made : whole rhs -> whole a -> G s -> gives (variable_part g rows s i rhs a d made) (fun r => G (fst r)).
Proof.
  intros WR WA H. apply gives_fold_in; [assumption|]. intros [s' made'] [j c] I H'. cbn [fst] in H'. apply row_unit in I.
  eapply gives_bind; [apply gives_unwrap; intros x E; exact (bound_whole _ _ _ x (ev_u _ H') E)|]. intros x W. cbv zeta.
  assert (N : whole ((rhs - (a - c * x)) / c)). { apply whole_over_unit; [exact I|]. apply whole_minus; [exact WR|]. apply whole_minus; [exact WA|]. now apply whole_by_unit. }
  destruct (even_update_act (i_u s') j (bmul (bnot d) c) _ N (ev_u _ H')) as [U1 U2].
  destruct (update_activity_bound _ _ _ _ _) as [u ch]. eapply gives_bind; [apply even_apply; [exact U2|]|intros s2 H2; apply gives_go; exact H2]. now apply even_with.
Qed.
Lemma activity_whole u d row : even_u u -> (forall j c, In (j, c) row -> unit_value c) -> gives (activity_sum g u d row) whole.
Proof.
  intros U R. apply gives_fold_in; [exact whole_0|]. intros acc [j c] I W. eapply gives_bind; [apply gives_unwrap; intros x E; exact (bound_whole _ _ _ x U E)|]. intros x X. apply gives_go.
  apply whole_plus; [exact W|]. apply whole_by_unit; [exact (R j c I)|exact X].
Qed.
Lemma known_whole u d row : even_u u -> (forall j c, In (j, c) row -> unit_value c) -> whole (known_activity g u d row).
Proof.
  intros U R. unfold known_activity. assert (K : forall acc, whole acc -> whole (fold_left (fun acc '(j, c) => match bound_of g u j (bmul d c) with Some x => acc + c * x | None => acc end) row acc)); [|apply K, whole_0].
  induction row as [|[j c] row IH]; intros acc W; [exact W|]. cbn [fold_left]. apply IH; [intros k a I; apply (R k a); now right|].
  destruct (bound_of g u j (bmul d c)) as [x|] eqn:E; [|exact W]. apply whole_plus; [exact W|]. apply whole_by_unit; [apply (R j c); now left|exact (bound_whole u j _ x U E)].
Qed.
Lemma usable_whole u i d x : even_u u -> usable_side g u i d = Some x -> whole x.
Proof.
  intros U. unfold usable_side. pose proof (ev_t _ U i) as T. pose proof (ev_b _ U i) as B. destruct (type_of g u i) as [|r| |], d; intros [= <-]; try exact B. apply whole_minus; [exact B|now apply T].
Qed.
Lemma decide_whole d t b a : (forall r, t = Range r -> whole r) -> gives (decide d t b a) (fun o => forall t' x, o = Some (ReplaceBy t' x) -> whole x /\ forall r, t' <> Range r).
Proof.
  intros T o E. unfold decide in E. destruct (b ?= a), d, t as [|r| |]; try destruct (a ?= b - r); try discriminate E; injection E as <-; intros t' x EQ; try discriminate EQ; injection EQ as <- <-;
    (split; [first [exact whole_0|apply whole_opp; now apply T]|discriminate]).
Qed.
Lemma even_propagation s i d : G s -> gives (domain_propagation_rule g rows s i d) (fun r => G (fst r)).
Proof.
  intros H. unfold domain_propagation_rule. destruct (side _ _) as [|[|k]]; [| |apply gives_panic].
  - unfold propagate_row. eapply gives_bind with (Q := fun r => G (fst r) /\ whole (snd r)).
    { unfold activity_bound. cbv zeta. destruct (side d (nth i (i_act s) (None, None))) as [x|] eqn:S; [apply gives_go; split; [exact H|exact (ev_act _ H _ _ _ S)]|].
      eapply gives_bind; [apply activity_whole; [apply H|]; intros j c I; exact (row_unit _ _ _ _ I)|]. intros x W. apply gives_go. split; [|exact W]. now apply even_upd_act. }
    intros [s2 a] [H2 WA]. cbn [fst snd] in *. eapply gives_bind with (Q := fun r => G (fst r)).
    { unfold constraint_part. eapply gives_bind; [apply decide_whole, (ev_t _ (ev_u _ H2))|]. intros [[|t sh|]|] D; try (apply gives_go; exact H2).
      - apply gives_go. cbn [fst]. apply even_with; [|exact H2]. destruct (D t sh eq_refl) as [W N]. apply even_change_b; [exact W|]. apply even_set_type; [intros r X; elim (N r X)|apply H2].
      - eapply gives_bind; [now apply even_set|]. intros s3 H3. now apply gives_go. }
    intros [s3 [[rm vs] made]] H3. cbn [fst] in H3. eapply gives_bind with (Q := fun r => G (fst r)).
    { destruct vs; [|now apply gives_go]. destruct (usable_side _ _ _) as [rhs|] eqn:US; [|now apply gives_go]. apply even_variable_part; [exact (usable_whole _ _ _ _ (ev_u _ H3) US)|exact WA|exact H3]. }
    intros [s4 made4] H4. cbn [fst] in H4. destruct rm; [|now apply gives_go]. eapply gives_bind; [now apply even_drop|]. intros s5 H5. apply gives_go. now apply even_gone.
  - unfold bound_one. destruct (usable_side _ _ _) as [rhs|] eqn:US; [|now apply gives_go]. cbv zeta.
    eapply gives_bind with (Q := fun e => unit_value (snd e)); [apply gives_unwrap; intros [j c] E; apply find_some in E; exact (row_unit _ _ _ _ (proj1 E))|]. intros [j c] U. cbn [snd] in U.
    assert (N : whole ((rhs - known_activity g (i_u s) d (active_row rows (i_c s) i)) / c)).
    { apply whole_over_unit; [exact U|]. apply whole_minus; [exact (usable_whole _ _ _ _ (ev_u _ H) US)|]. apply known_whole; [apply H|]. intros k a I. exact (row_unit _ _ _ _ I). }
    destruct (even_update_act (i_u s) j (bmul (bnot d) c) _ N (ev_u _ H)) as [U1 U2].
    destruct (update_activity_bound _ _ _ _ _) as [u ch]. eapply gives_bind; [apply even_apply; [exact U2|]|intros s2 H2; apply gives_go; exact H2]. now apply even_with.
Qed.
Lemma even_slack_case t lo hi c t' b : (forall r, t = Range r -> whole r) -> (forall x, lo = Some x -> whole x) -> (forall x, hi = Some x -> whole x) -> unit_value c ->
  slack_case t lo hi c = Some (t', b) -> whole b /\ forall r, t' = Range r -> whole r.
Proof.
  intros T L H C. unfold slack_case. destruct (qneg c), t as [|r| |], lo as [l|], hi as [h|]; intros E; try discriminate; injection E as <- <-;
    (split; [first [now apply L|now apply H]|]); try discriminate; intros r' [= <-];
    try (apply whole_plus; [now apply T|]); (apply whole_by_unit; [exact C|]); (apply whole_minus; [first [now apply L|now apply H]|first [now apply H|now apply L]]).
Qed.
Lemma even_slack_value s i j c : unit_value c -> G s -> tidy (slack_value g rows s i j c).
Proof.
  intros C H. unfold slack_value, tidy. split; [apply whole_over_unit; [exact C|apply H]|]. intros k a I. apply in_map_iff in I. destruct I as ([k' a'] & [= <- <-] & I). apply filter_In in I.
  apply unit_over_unit; [exact (row_unit _ _ _ _ (proj1 I))|exact C].
Qed.
Lemma even_slack s j : G s -> gives (slack_rule g rows s j) G.
Proof.
  intros H. unfold slack_rule. eapply gives_bind with (Q := fun e => unit_value (snd e)); [apply gives_unwrap; intros [i c] E; exact (col_unit _ _ _ _ (hd_In _ _ E))|]. intros [i c] U. cbn [snd] in U. cbv zeta.
  destruct (slack_case _ _ _ _) as [[t' bound]|] eqn:SC.
  - apply even_slack_case in SC; [|apply (ev_t _ (ev_u _ H))|intros x X; exact (bound_whole _ _ _ x (ev_u _ H) X)|intros x X; exact (bound_whole _ _ _ x (ev_u _ H) X)|exact U]. destruct SC as [WB WT].
    assert (TS : tidy (match type_of g (i_u s) i with Equal | Range _ => slack_value g rows s i j c | _ => Solved bound end)) by (destruct (type_of g (i_u s) i); try exact WB; now apply even_slack_value).
    eapply gives_bind; [now apply even_dec_var|]. intros s2 H2. eapply gives_bind with (Q := G).
    { apply gives_fold; [now apply even_mark|]. intros s' d H'. destruct (bound_of _ _ _ _); [now apply gives_go|]. eapply gives_bind; [now apply even_dec_act|]. intros s3 H3. apply gives_go.
      destruct (Nat.leb _ _); [now apply even_push|assumption]. }
    intros s3 H3. eapply gives_bind; [now apply even_dec_con|]. intros s4 H4. eapply gives_bind; [now apply even_queue_constraint|]. intros s5 H5. apply gives_go.
    apply even_with; [|exact H5]. apply even_set_type; [exact WT|]. apply even_change_b; [|apply H5]. apply whole_by_unit; [now apply unit_opp|exact WB].
  - eapply gives_bind with (Q := G).
    { apply gives_fold; [assumption|]. intros s' [k a] H'. eapply gives_bind; [now apply even_dec_con|]. intros s2 H2.
      eapply gives_bind; [now apply even_dec_var|]. intros s3 H3. destruct (Nat.eqb k j); [now apply gives_go|now apply even_queue_variable]. }
    intros s2 H2. apply gives_go. apply even_gone. apply even_mark; [now apply even_slack_value|exact H2].
Qed.
Lemma even_step s : G s -> gives (presolve_step g rows s) (fun r => G (fst r)).
Proof.
  intros H. unfold presolve_step. assert (K : forall q, G (with_q s q)) by (intros; same).
  set (sub := match q_sub (i_q s) with [] => _ | _ => _ end). destruct (fst sub) as [j|].
  - eapply gives_bind; [apply even_fixed_variable, K|]. intros s2 H2. now apply gives_go.
  - destruct (fst (drain _ (q_bound _))) as [i|].
    + eapply gives_bind; [apply even_bound_constraint, K|]. intros s2 H2. now apply gives_go.
    + destruct (fst (drain _ (q_slack _))) as [j|].
      * eapply gives_bind; [apply even_slack, K|]. intros s2 H2. now apply gives_go.
      * destruct (fst (drain _ (q_act (i_q s)))) as [[i d]|]; [apply even_propagation, K|apply gives_go, K].
Qed.
Lemma even_loop : forall fuel stale s, G s -> gives (presolve_loop g rows fuel stale s) G.
Proof.
  induction fuel as [|fuel IH]; intros stale s H; cbn [presolve_loop]; (destruct (queues_empty _); [now apply gives_go|]); apply gives_any; intros k; (destruct (Nat.leb _ _); [now apply gives_go|]).
  - discriminate.
  - eapply gives_bind; [now apply even_step|]. intros [s2 ch] H2. cbn [fst snd] in *. destruct ch; now apply IH.
Qed.
Lemma even_nothing : even_u no_updates.
Proof. split; cbn; [intros i; apply Wb|apply Wt|discriminate|discriminate|contradiction]. Qed.
Lemma even_start : gives (index_new g rows) G.
Proof.
  unfold index_new. cbv zeta. eapply gives_bind with (Q := even_u).
  - unfold updates_new. eapply gives_bind with (Q := even_u).
    + apply gives_fold; [exact even_nothing|]. intros u j U. unfold empty_column. eapply gives_bind with (Q := fun r => whole (fst r)).
      * destruct (qzero _).
        -- eapply gives_bind; [apply gives_unwrap; intros v E; exact (feasible_whole _ j v even_nothing E)|]. intros v W. now apply gives_go.
        -- eapply gives_bind; [apply optimize_whole; [exact (Wv j Lower)|exact (Wv j Upper)]|]. intros v W. now apply gives_go.
      * intros r W. apply gives_go. split; try apply U. cbn [u_removed]. intros k r' I. apply in_app_iff in I. destruct I as [I|[[= <- <-]|[]]]; [exact (ev_removed _ U k r' I)|exact W].
    + intros u U. apply gives_fold; [exact U|]. intros u' i U'. unfold empty_row. destruct (empty_feasible _ _); [|apply gives_stop]. apply gives_go. split; apply U'.
  - intros u U. apply gives_go. split; [exact U|]. cbn [i_act]. intros i d x. rewrite nth_repeat. destruct d; discriminate.
Qed.
End Even.
