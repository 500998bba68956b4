(** * Presolving: the loop ends *)
From Verif Require Import SpecGeneral SparseP PreCount PreRules.
From Verif Require Export Presolve.
Local Open Scope nat_scope.

Lemma filter_le {A} (f f' : A -> bool) : forall l, (forall x, In x l -> f' x = true -> f x = true) -> length (filter f' l) <= length (filter f l).
Proof.
  induction l as [|a l IH]; intros H; cbn; [lia|]. specialize (IH (fun x K => H x (or_intror K))). pose proof (H a (or_introl eq_refl)) as Ha.
  destruct (f' a); [rewrite Ha by reflexivity; cbn; lia|]. destruct (f a); cbn; lia.
Qed.
Lemma filter_lt {A} (f f' : A -> bool) l x : (forall x, In x l -> f' x = true -> f x = true) -> In x l -> f x = true -> f' x = false ->
  length (filter f' l) < length (filter f l).
Proof.
  intros H I F F'. apply in_split in I. destruct I as (l1 & l2 & ->). rewrite !filter_app, !app_length. cbn. rewrite F, F'. cbn.
  assert (length (filter f' l1) <= length (filter f l1)) by (apply filter_le; intros y K; apply H; apply in_or_app; now left).
  assert (length (filter f' l2) <= length (filter f l2)) by (apply filter_le; intros y K; apply H; apply in_or_app; right; now right). lia.
Qed.
Lemma foldP_rel {A S} (f : S -> A -> pr S) (R : S -> S -> Prop) (l : list A) :
  (forall s, R s s) -> (forall a b c, R a b -> R b c -> R a c) ->
  (forall s a s', In a l -> f s a = Go s' -> R s s') -> forall s s', foldP f l s = Go s' -> R s s'.
Proof.
  intros R0 RT. induction l as [|a l IH]; intros H s s' E; cbn in E.
  - injection E as <-. apply R0.
  - destruct (f s a) as [s1| | |] eqn:F; cbn in E; try discriminate. apply (RT _ s1).
    + apply (H _ a); [now left|assumption].
    + apply IH; [intros s2 b s3 I K; apply (H _ b); [now right|assumption]|assumption].
Qed.

(** no function of the loop body runs out of fuel by itself *)
Lemma nofuel_bind {A B} (x : pr A) (f : A -> pr B) : x <> PFuel -> (forall a, f a <> PFuel) -> pbind x f <> PFuel.
Proof. intros H K. destruct x; cbn; [apply K|discriminate|discriminate|contradiction]. Qed.
Lemma nofuel_unwrap {A} (o : option A) : unwrap o <> PFuel.
Proof. destruct o; discriminate. Qed.
Lemma nofuel_fold {A S} (f : S -> A -> pr S) : (forall s a, f s a <> PFuel) -> forall l s, foldP f l s <> PFuel.
Proof. intros H. induction l as [|a l IH]; intros s; cbn; [discriminate|]. apply nofuel_bind; [apply H|exact IH]. Qed.
Ltac nofuel := repeat first
  [ discriminate
  | apply nofuel_unwrap
  | assumption
  | match goal with H : forall _, _ |- _ => apply H end
  | apply nofuel_bind; [|intros ?]
  | apply nofuel_fold; intros ? ?
  | match goal with |- context [match ?x with _ => _ end] => destruct x end ].

Section Term.
Variables (g : general) (rows : list svec).
Local Notation n := (length (g_vars g)).
Local Notation m := (g_rows g).

Definition is_range (t : rel) : bool := match t with Range _ => true | _ => false end.
Definition lacks (u : updates) (e : nat * bdir) : bool := match bound_of g u (fst e) (snd e) with None => true | Some _ => false end.
Definition missing (u : updates) : nat := length (filter (lacks u) (list_prod (range 0 n) [Lower; Upper])).
Definition ranges (u : updates) : nat := length (filter (fun i => is_range (type_of g u i)) (range 0 m)).
Definition measure (u : updates) : nat := 2 * (n - length (u_removed u)) + (m - length (u_gone u)) + missing u + ranges u.

(** nothing comes back *)
Record grow_u (u u' : updates) : Prop := mk_grow {
  gr_removed : length (u_removed u) <= length (u_removed u');
  gr_gone : length (u_gone u) <= length (u_gone u');
  gr_bounds : forall j d, bound_of g u' j d = None -> bound_of g u j d = None;
  gr_types : forall i, is_range (type_of g u' i) = true -> is_range (type_of g u i) = true }.
Record grow (s s' : pindex) : Prop := mk_growp {
  gr_u : grow_u (i_u s) (i_u s');
  gr_var : length (c_var (i_c s')) = length (c_var (i_c s));
  gr_con : length (c_con (i_c s')) = length (c_con (i_c s)) }.
Lemma grow_u_refl u : grow_u u u. Proof. constructor; auto. Qed.
Lemma grow_u_trans a b c : grow_u a b -> grow_u b c -> grow_u a c.
Proof. intros [A1 A2 A3 A4] [B1 B2 B3 B4]. constructor; auto; lia. Qed.
Lemma grow_refl s : grow s s. Proof. constructor; auto using grow_u_refl. Qed.
Lemma grow_trans a b c : grow a b -> grow b c -> grow a c.
Proof. intros [A1 A2 A3] [B1 B2 B3]. constructor; [eapply grow_u_trans; eassumption|congruence|congruence]. Qed.
Lemma grow_same_uc s s' : i_u s' = i_u s -> i_c s' = i_c s -> grow s s'.
Proof. intros E1 E2. constructor; rewrite ?E1, ?E2; auto using grow_u_refl. Qed.

Lemma dec_length l k l' : dec l k = Go l' -> length l' = length l.
Proof. unfold dec. destruct (nth k l 0); [discriminate|]. intros E. injection E as <-. apply upd_length. Qed.
Lemma dec_var_grow s j s' : dec_var s j = Go s' -> grow s s'.
Proof.
  unfold dec_var. destruct (dec _ j) eqn:E; cbn; try discriminate. intros K. injection K as <-. apply dec_length in E.
  constructor; cbn; auto using grow_u_refl.
Qed.
Lemma dec_con_grow s j s' : dec_con s j = Go s' -> grow s s'.
Proof.
  unfold dec_con. destruct (dec _ j) eqn:E; cbn; try discriminate. intros K. injection K as <-. apply dec_length in E.
  constructor; cbn; auto using grow_u_refl.
Qed.
Lemma dec_act_grow s i d s' : dec_act s i d = Go s' -> grow s s'.
Proof.
  unfold dec_act. destruct (side d _); [discriminate|]. intros K. injection K as <-. constructor; cbn; auto using grow_u_refl.
Qed.
Lemma push_act_grow s e : grow s (push_act s e).
Proof. unfold push_act. destruct (queued e _); apply grow_same_uc; reflexivity. Qed.
Lemma push_grow s j : grow s (push_sub s j) /\ grow s (push_bound s j) /\ grow s (push_slack s j).
Proof. repeat split; auto. Qed.
Lemma mark_variable_grow s j r : grow s (mark_variable s j r).
Proof. constructor; cbn; auto. constructor; cbn; auto. rewrite app_length. cbn. lia. Qed.
Lemma mark_constraint_grow s i : grow s (mark_constraint s i).
Proof. constructor; cbn; auto. constructor; cbn; auto. rewrite app_length. cbn. lia. Qed.
Lemma add_cost_grow u c : grow_u u (add_cost u c). Proof. constructor; auto. Qed.
Lemma change_b_grow u i c : grow_u u (change_b g u i c). Proof. constructor; auto. Qed.
Lemma with_u_grow s u : grow_u (i_u s) u -> grow s (with_u s u).
Proof. intros H. constructor; auto. Qed.

Lemma queue_variable_grow s j s' : queue_variable g s j = Go s' -> grow s s'.
Proof.
  unfold queue_variable. destruct (nth j _ 0) as [|[|k]].
  - destruct (qzero _).
    + destruct (feasible_value g _ j); cbn; try discriminate. intros E. injection E as <-. apply mark_variable_grow.
    + destruct (optimize_column _ _ _ _); cbn; try discriminate. intros E. injection E as <-.
      eapply grow_trans; [apply with_u_grow, add_cost_grow|apply mark_variable_grow].
  - intros E. injection E as <-. destruct (qzero _); [apply push_grow|apply grow_refl].
  - intros E. injection E as <-. apply grow_refl.
Qed.
Lemma queue_constraint_grow s i s' : queue_constraint g s i = Go s' -> grow s s'.
Proof.
  unfold queue_constraint. destruct (nth i _ 0) as [|[|k]].
  - destruct (empty_feasible _ _); [|discriminate]. intros E. injection E as <-. apply mark_constraint_grow.
  - intros E. injection E as <-. apply push_grow.
  - intros E. injection E as <-. apply grow_refl.
Qed.
Lemma update_activity_bounds_grow s j d c : grow s (update_activity_bounds g s j d c).
Proof.
  unfold update_activity_bounds. generalize (active_column g (i_c s) j). intros l. revert s. induction l as [|[i a] l IH]; intros s; cbn; [apply grow_refl|].
  eapply grow_trans; [|apply IH]. destruct (con_active _ _); [|apply grow_refl]. destruct (side _ _); [|apply grow_refl].
  eapply grow_trans; [|apply push_act_grow]. apply grow_same_uc; reflexivity.
Qed.
Lemma update_activity_counters_grow s j d s' : update_activity_counters g s j d = Go s' -> grow s s'.
Proof.
  unfold update_activity_counters. apply foldP_rel; [apply grow_refl|apply grow_trans|]. intros sa [i c] sb _ E. cbn in E.
  apply pbind_go in E. destruct E as (s1 & E1 & E2). injection E2 as <-. apply dec_act_grow in E1.
  destruct (Nat.leb _ 1); [eapply grow_trans; [exact E1|apply push_act_grow]|exact E1].
Qed.
Lemma after_bound_change_grow s j d c s' : after_bound_change g s j d c = Go s' -> grow s s'.
Proof.
  unfold after_bound_change. set (s1 := match fixed_value g (i_u s) j with Some _ => _ | None => _ end). assert (G : grow s s1).
  { unfold s1. destruct (fixed_value _ _ _); [|apply grow_refl]. destruct (var_active _ _); [apply push_grow|apply grow_refl]. }
  destruct c; intros E.
  - injection E as <-. eapply grow_trans; [exact G|apply update_activity_bounds_grow].
  - eapply grow_trans; [exact G|now apply update_activity_counters_grow in E].
Qed.
Lemma apply_change_grow s j d c s' : apply_change g s j d c = Go s' -> grow s s'.
Proof.
  destruct c; unfold apply_change; [intros E; injection E as <-; apply grow_refl|apply after_bound_change_grow|apply after_bound_change_grow].
Qed.

Lemma put2_at {A} (f : nat -> bdir -> option A) j d x : put2 f j d x j d = x.
Proof. unfold put2. rewrite Nat.eqb_refl. now destruct d. Qed.
Lemma put2_off {A} (f : nat -> bdir -> option A) j d x k e : ~ (k = j /\ e = d) -> put2 f j d x k e = f k e.
Proof. intros N. unfold put2. fold (is_at k e j d). destruct (is_at_spec k e j d); [contradiction|reflexivity]. Qed.
Lemma insert_bound_grow j d u x : (forall y, u_acts u j d = Some y -> True) -> grow_u u (insert_bound j d u x).
Proof.
  intros _. constructor; auto. intros k e. unfold bound_of. cbn. destruct (u_acts u k e); [auto|].
  destruct (is_at_spec k e j d) as [[E1 E2]|A].
  - subst k e. rewrite put2_at. discriminate.
  - rewrite put2_off by assumption. auto.
Qed.
Lemma insert_act_grow j d u x : grow_u u (insert_act j d u x).
Proof.
  constructor; auto. intros k e. unfold bound_of. cbn. destruct (is_at_spec k e j d) as [[E1 E2]|A].
  - subst k e. rewrite put2_at. discriminate.
  - rewrite put2_off by assumption. auto.
Qed.
Lemma move_grow j d u x : grow_u u (insert_bound j d (remove_act j d u) x).
Proof.
  constructor; auto. intros k e. unfold bound_of. cbn. destruct (is_at_spec k e j d) as [[E1 E2]|A].
  - subst k e. rewrite !put2_at. discriminate.
  - rewrite !put2_off by assumption. auto.
Qed.
Lemma update_bound_grow u j d new u' ch : update_bound g u j d new = (u', ch) -> grow_u u u' /\
  (ch = NewBound -> bound_of g u j d = None /\ bound_of g u' j d <> None).
Proof.
  unfold update_bound, compare_update. destruct (u_bounds u j d) eqn:B.
  - destruct (match d with Lower => _ | Upper => _ end); intros E; injection E as <- <-; (split; [|discriminate]); [now apply insert_bound_grow|apply grow_u_refl].
  - destruct (u_acts u j d) eqn:A.
    + destruct (match d with Lower => _ | Upper => _ end); intros E; injection E as <- <-; (split; [|discriminate]); [eapply grow_u_trans; [apply move_grow|now apply insert_bound_grow]|apply move_grow].
    + destruct (vbound (gvar g j) d) eqn:V.
      * destruct (match d with Lower => _ | Upper => _ end); intros E; injection E as <- <-; (split; [|discriminate]); [now apply insert_bound_grow|apply grow_u_refl].
      * intros E. injection E as <- <-. split; [now apply insert_bound_grow|]. intros _. unfold bound_of. rewrite A, B, V. split; [reflexivity|].
        cbn. rewrite A, put2_at. discriminate.
Qed.
Lemma update_activity_bound_grow u j d new u' ch : update_activity_bound g u j d new = (u', ch) -> grow_u u u' /\
  (ch = NewBound -> bound_of g u j d = None /\ bound_of g u' j d <> None).
Proof.
  unfold update_activity_bound, compare_update. destruct (u_acts u j d) eqn:A.
  - destruct (match d with Lower => _ | Upper => _ end); intros E; injection E as <- <-; (split; [|discriminate]); [apply insert_act_grow|apply grow_u_refl].
  - destruct (u_bounds u j d) eqn:B.
    + destruct (match d with Lower => _ | Upper => _ end); intros E; injection E as <- <-; (split; [|discriminate]); [now apply insert_bound_grow|apply grow_u_refl].
    + destruct (vbound (gvar g j) d) eqn:V.
      * destruct (match d with Lower => _ | Upper => _ end); intros E; injection E as <- <-; (split; [|discriminate]); [apply insert_act_grow|apply grow_u_refl].
      * intros E. injection E as <- <-. split; [apply insert_act_grow|]. intros _. unfold bound_of. rewrite A, B, V. split; [reflexivity|].
        cbn. rewrite put2_at. discriminate.
Qed.

(** ** The measure *)
Lemma missing_le u u' : grow_u u u' -> missing u' <= missing u.
Proof.
  intros G. apply filter_le. intros [j d] _. unfold lacks. cbn. destruct (bound_of g u' j d) eqn:E; [discriminate|]. intros _.
  now rewrite (gr_bounds _ _ G j d E).
Qed.
Lemma missing_lt u u' j d : grow_u u u' -> j < n -> bound_of g u j d = None -> bound_of g u' j d <> None -> missing u' < missing u.
Proof.
  intros G L E E'. apply (filter_lt _ _ _ (j, d)).
  - intros [k e] _. unfold lacks. cbn. destruct (bound_of g u' k e) eqn:K; [discriminate|]. intros _. now rewrite (gr_bounds _ _ G k e K).
  - apply in_prod; [apply In_range; lia|destruct d; cbn; auto].
  - unfold lacks. cbn. now rewrite E.
  - unfold lacks. cbn. now destruct (bound_of g u' j d).
Qed.
Lemma ranges_le u u' : grow_u u u' -> ranges u' <= ranges u.
Proof. intros G. apply filter_le. intros i _. apply (gr_types _ _ G). Qed.
Lemma measure_le u u' : grow_u u u' -> measure u' <= measure u.
Proof. intros G. pose proof (missing_le _ _ G). pose proof (ranges_le _ _ G). destruct G. unfold measure. lia. Qed.
Definition fits (u : updates) : Prop := length (u_removed u) <= n /\ length (u_gone u) <= m.
Lemma measure_removed u u' : grow_u u u' -> length (u_removed u) < length (u_removed u') -> fits u' -> measure u' < measure u.
Proof. intros G L [F1 F2]. pose proof (missing_le _ _ G). pose proof (ranges_le _ _ G). destruct G. unfold measure. lia. Qed.
Lemma measure_gone u u' : grow_u u u' -> length (u_gone u) < length (u_gone u') -> fits u' -> measure u' < measure u.
Proof. intros G L [F1 F2]. pose proof (missing_le _ _ G). pose proof (ranges_le _ _ G). destruct G. unfold measure. lia. Qed.
Lemma measure_missing u u' j d : grow_u u u' -> j < n -> bound_of g u j d = None -> bound_of g u' j d <> None -> measure u' < measure u.
Proof. intros G L E E'. pose proof (missing_lt _ _ _ _ G L E E'). pose proof (ranges_le _ _ G). destruct G. unfold measure. lia. Qed.
(** the type of one row changes *)
Lemma ranges_set u i t : ranges (set_type u i t) <= ranges u + 1.
Proof.
  unfold ranges. set (f := fun k => is_range (type_of g u k)).
  assert (E : length (filter (fun k => is_range (type_of g (set_type u i t) k)) (range 0 m)) <= length (filter (fun k => f k || Nat.eqb k i) (range 0 m))).
  { apply filter_le. intros k _. unfold type_of at 1. cbn. unfold put. destruct (Nat.eqb_spec k i) as [->|]; [intros _; apply orb_true_r|].
    intros H. now rewrite orb_false_r. }
  assert (K : forall l, NoDup l -> length (filter (fun k => f k || Nat.eqb k i) l) <= length (filter f l) + 1).
  { induction l as [|a l IH]; intros ND; cbn; [lia|]. apply NoDup_cons_iff in ND. destruct ND as [NI ND]. specialize (IH ND).
    destruct (Nat.eqb_spec a i) as [->|].
    - rewrite orb_true_r. cbn. assert (Q : filter (fun k => f k || Nat.eqb k i) l = filter f l).
      { apply filter_ext_in. intros b Ib. destruct (Nat.eqb_spec b i) as [->|]; [contradiction|now rewrite orb_false_r]. }
      rewrite Q. destruct (f i); cbn; lia.
    - rewrite orb_false_r. destruct (f a); cbn; lia. }
  specialize (K (range 0 m)). unfold range in *. rewrite Nat.sub_0_r in *. specialize (K (seq_NoDup m 0)). lia.
Qed.

(** ** The rules *)
Lemma row_loop_grow i (p : nat -> bool) : forall (l : svec) s s',
  foldP (fun s (e : nat * Qc) => let '(k, _) := e in let+ s := dec_con s i in let+ s := dec_var s k in if p k then Go s else queue_variable g s k) l s = Go s' -> grow s s'.
Proof.
  intros l. apply foldP_rel; [apply grow_refl|apply grow_trans|]. intros s [k c] s' _ E.
  apply pbind_go in E. destruct E as (s1 & E1 & E). apply pbind_go in E. destruct E as (s2 & E2 & E).
  apply dec_con_grow in E1. apply dec_var_grow in E2. eapply grow_trans; [exact E1|]. eapply grow_trans; [exact E2|].
  destruct (p k); [injection E as <-; apply grow_refl|now apply queue_variable_grow in E].
Qed.
Lemma fixed_variable_measure s j s' : fixed_variable_rule g s j = Go s' -> grow s s' /\ (fits (i_u s') -> measure (i_u s') < measure (i_u s)).
Proof.
  unfold fixed_variable_rule. intros E. apply pbind_go in E. destruct E as (v & _ & E). apply pbind_go in E. destruct E as (s1 & E1 & E).
  injection E as <-. set (u0 := fold_left _ _ (i_u s)) in E1. set (s0 := with_u s (add_cost u0 _)) in E1.
  assert (G0 : grow s s0).
  { apply with_u_grow. eapply grow_u_trans; [|apply add_cost_grow]. unfold u0. generalize (active_column g (i_c s) j). generalize (i_u s).
    intros u l. revert u. induction l as [|[i c] l IH]; intros u; cbn; [apply grow_u_refl|]. eapply grow_u_trans; [apply change_b_grow|apply IH]. }
  assert (G1 : grow s0 s1).
  { revert E1. apply foldP_rel; [apply grow_refl|apply grow_trans|]. intros sa [i c] sb _ E.
    apply pbind_go in E. destruct E as (sc & E1 & E). apply pbind_go in E. destruct E as (sd & E2 & E).
    apply dec_var_grow in E1. apply dec_con_grow in E2. apply queue_constraint_grow in E. eapply grow_trans; [exact E1|]. eapply grow_trans; eassumption. }
  pose proof (grow_trans _ _ _ G0 G1) as G. split; [eapply grow_trans; [exact G|apply mark_variable_grow]|].
  intros F. apply measure_removed; [apply gr_u; eapply grow_trans; [exact G|apply mark_variable_grow]| |assumption].
  pose proof (gr_removed _ _ (gr_u _ _ G)). cbn. rewrite app_length. cbn. lia.
Qed.
Lemma bound_constraint_measure s i s' : bound_constraint_rule g rows s i = Go s' -> grow s s' /\ (fits (i_u s') -> measure (i_u s') < measure (i_u s)).
Proof.
  unfold bound_constraint_rule. intros E. apply pbind_go in E. destruct E as ([j c] & _ & E).
  apply pbind_go in E. destruct E as (s1 & E1 & E). apply pbind_go in E. destruct E as (s2 & E2 & E). apply pbind_go in E. destruct E as (s3 & E3 & E).
  destruct (feasible_value g _ j); [|discriminate]. apply dec_var_grow in E1. apply dec_con_grow in E2. apply queue_variable_grow in E.
  assert (G3 : grow (mark_constraint s2 i) s3).
  { revert E3. apply foldP_rel; [apply grow_refl|apply grow_trans|]. intros sa [d x] sb _ EE.
    destruct (update_bound g (i_u sa) j d x) as [u ch] eqn:U. apply update_bound_grow in U. apply apply_change_grow in EE.
    eapply grow_trans; [apply with_u_grow, U|exact EE]. }
  pose proof (grow_trans _ _ _ E1 E2) as G2. pose proof (grow_trans _ _ _ G3 E) as G4.
  assert (G : grow s s') by (eapply grow_trans; [exact G2|]; eapply grow_trans; [apply mark_constraint_grow|exact G4]).
  split; [exact G|]. intros F. apply measure_gone; [apply gr_u, G| |assumption].
  pose proof (gr_gone _ _ (gr_u _ _ G2)). pose proof (gr_gone _ _ (gr_u _ _ G4)). cbn in *. rewrite app_length in *. cbn in *. lia.
Qed.
Lemma slack_measure s j s' : slack_rule g rows s j = Go s' ->
  length (c_var (i_c s')) = length (c_var (i_c s)) /\ length (c_con (i_c s')) = length (c_con (i_c s)) /\
  (fits (i_u s') -> measure (i_u s') < measure (i_u s)).
Proof.
  unfold slack_rule. intros E. apply pbind_go in E. destruct E as ([i c] & _ & E).
  destruct (slack_case _ _ _ _) as [[t' bound]|].
  - set (sol := match type_of g (i_u s) i with Equal => _ | _ => _ end) in E. clearbody sol.
    apply pbind_go in E. destruct E as (s1 & E1 & E). apply pbind_go in E. destruct E as (s2 & E2 & E). apply pbind_go in E. destruct E as (s3 & E3 & E).
    apply pbind_go in E. destruct E as (s4 & E4 & E). injection E as <-.
    apply dec_var_grow in E1. apply dec_con_grow in E3. apply queue_constraint_grow in E4.
    assert (G2 : grow (mark_variable s1 j sol) s2).
    { revert E2. unfold slack_activity. apply foldP_rel; [apply grow_refl|apply grow_trans|]. intros sa d sb _ E.
      destruct (match bound_of _ _ _ _ with Some _ => _ | None => _ end); [|injection E as <-; apply grow_refl].
      apply pbind_go in E. destruct E as (sc & Ec & Ed). injection Ed as <-. apply dec_act_grow in Ec.
      destruct (Nat.leb _ 1); [eapply grow_trans; [exact Ec|apply push_act_grow]|exact Ec]. }
    pose proof (grow_trans _ _ _ G2 (grow_trans _ _ _ E3 E4)) as G4.
    assert (G : grow s s4) by (eapply grow_trans; [exact E1|]; eapply grow_trans; [apply mark_variable_grow|exact G4]).
    split; [apply G|]. split; [apply G|]. intros [F1 F2]. cbn [with_u i_u set_type change_b set_b u_removed u_gone] in F1, F2.
    pose proof (missing_le _ _ (gr_u _ _ G)) as M. pose proof (ranges_le _ _ (gr_u _ _ G)) as R. pose proof (gr_gone _ _ (gr_u _ _ G)) as O.
    pose proof (ranges_set (change_b g (i_u s4) i (- c * bound)%Qc) i t') as RS.
    assert (RB : ranges (change_b g (i_u s4) i (- c * bound)%Qc) = ranges (i_u s4)) by reflexivity.
    assert (MB : missing (set_type (change_b g (i_u s4) i (- c * bound)%Qc) i t') = missing (i_u s4)) by reflexivity.
    assert (L : length (u_removed (i_u s)) < length (u_removed (i_u s4))).
    { pose proof (gr_removed _ _ (gr_u _ _ E1)). pose proof (gr_removed _ _ (gr_u _ _ G4)) as L4. cbn in L4. rewrite app_length in L4. cbn in L4. lia. }
    unfold measure. cbn [with_u i_u u_removed u_gone set_type change_b set_b] in *. rewrite MB. lia.
  - apply pbind_go in E. destruct E as (s1 & E1 & E). injection E as <-.
    apply (row_loop_grow i (fun k => Nat.eqb k j)) in E1. set (sol := slack_value g rows s i j c) in *.
    assert (G : grow s (mark_constraint (mark_variable s1 j sol) i)).
    { eapply grow_trans; [exact E1|]. eapply grow_trans; [apply mark_variable_grow|apply mark_constraint_grow]. }
    split; [apply G|]. split; [apply G|]. intros F. apply measure_removed; [apply gr_u, G| |assumption].
    pose proof (gr_removed _ _ (gr_u _ _ E1)). cbn. rewrite app_length. cbn. lia.
Qed.

(** one application of domain propagation *)
Definition domain_progress (s : pindex) (r : pindex * change) : Prop :=
  grow s (fst r) /\ (snd r = Meaningful -> fits (i_u (fst r)) -> measure (i_u (fst r)) < measure (i_u s)) /\ (snd r = NoneMade -> i_q (fst r) = i_q s).
Lemma active_row_lt s i j c : length (c_var (i_c s)) = n -> In (j, c) (active_row rows (i_c s) i) -> j < n.
Proof.
  intros L H. apply filter_In in H. destruct H as [_ H]. unfold var_active in H. apply negb_true_iff, Nat.eqb_neq in H.
  rewrite <- L. now apply nth_nonzero_lt.
Qed.
Lemma apply_none s j d s' : apply_change g s j d NoChange = Go s' -> s' = s. Proof. intros E. now injection E. Qed.
Lemma bound_one_progress s i d r : length (c_var (i_c s)) = n -> bound_one g rows s i d = Go r -> domain_progress s r.
Proof.
  intros L. unfold bound_one. destruct (usable_side g (i_u s) i d) as [rhs|].
  2:{ intros E. injection E as <-. split; [apply grow_refl|split; [discriminate|reflexivity]]. }
  intros E. apply pbind_go in E. destruct E as ([j c] & E0 & E).
  destruct (update_activity_bound _ _ _ _ _) as [u ch] eqn:U. apply pbind_go in E. destruct E as (s1 & E1 & E). injection E as <-.
  apply update_activity_bound_grow in U. destruct U as [GU NU]. pose proof E1 as E1'. apply apply_change_grow in E1.
  assert (G : grow s s1) by (eapply grow_trans; [apply with_u_grow, GU|exact E1]).
  split; [exact G|]. cbn [fst snd]. split.
  - intros M _. assert (ch = NewBound) by (destruct ch; cbn in M; try discriminate; reflexivity). destruct (NU H) as [N1 N2].
    apply (measure_missing _ _ j (bmul (bnot d) c)); [apply gr_u, G| |assumption|].
    + destruct (missing_entry g (i_u s) d _) as [[k e]|] eqn:ME; [|discriminate]. cbn in E0. injection E0 as -> ->.
      unfold missing_entry in ME. apply find_some in ME. apply (active_row_lt s i j c L). apply ME.
    + intros K. apply N2. now apply (gr_bounds _ _ (gr_u _ _ E1)).
  - intros M. destruct ch; cbn in M; try discriminate. apply apply_none in E1'. subst s1. reflexivity.
Qed.
Lemma upgrade_none made ch : upgrade made ch = NoneMade -> made = NoneMade /\ ch = NoChange.
Proof. destruct made, ch; cbn; intros E; try discriminate; now split. Qed.
Lemma upgrade_meaningful made ch : upgrade made ch = Meaningful -> made = Meaningful \/ ch = NewBound.
Proof. destruct made, ch; cbn; intros E; try discriminate; auto. Qed.
Lemma variable_part_progress s i rhs a d made r : length (c_var (i_c s)) = n -> variable_part g rows s i rhs a d made = Go r ->
  grow s (fst r) /\ (snd r = Meaningful -> made = Meaningful \/ measure (i_u (fst r)) < measure (i_u s)) /\
  (snd r = NoneMade -> made = NoneMade /\ i_q (fst r) = i_q s).
Proof.
  intros L. unfold variable_part.
  set (R := fun a b : pindex * change => grow (fst a) (fst b) /\
     (snd b = Meaningful -> snd a = Meaningful \/ measure (i_u (fst b)) < measure (i_u (fst a))) /\
     (snd b = NoneMade -> snd a = NoneMade /\ i_q (fst b) = i_q (fst a))).
  intros E. change (R (s, made) r). revert E.
  assert (GM : forall a b, grow a b -> measure (i_u b) <= measure (i_u a)) by (intros x y G; apply measure_le, G).
  apply foldP_rel.
  - intros x. split; [apply grow_refl|split; auto].
  - intros x y z [A1 [A2 A3]] [B1 [B2 B3]]. split; [eapply grow_trans; eassumption|]. apply GM in A1, B1. split.
    + intros M. destruct (B2 M) as [M'|M']; [destruct (A2 M') as [M2|M2]; [now left|right; lia]|right; lia].
    + intros M. destruct (B3 M) as [M1 M2]. destruct (A3 M1) as [M3 M4]. split; [assumption|congruence].
  - intros [s0 made0] [j c] [s1 made1] I E. apply pbind_go in E. destruct E as (x & _ & E).
    destruct (update_activity_bound _ _ _ _ _) as [u ch] eqn:U. apply pbind_go in E. destruct E as (s2 & E1 & E). injection E as <- <-.
    apply update_activity_bound_grow in U. destruct U as [GU NU]. pose proof E1 as E1'. apply apply_change_grow in E1.
    assert (G : grow s0 s2) by (eapply grow_trans; [apply with_u_grow, GU|exact E1]). cbn [fst snd]. split; [exact G|]. cbn [fst snd]. split.
    + intros M. apply upgrade_meaningful in M. destruct M as [M|M]; [now left|right]. destruct (NU M) as [N1 N2].
      apply (measure_missing _ _ j (bmul (bnot d) c)); [apply gr_u, G|exact (active_row_lt s i j c L I)|assumption|].
      intros K. apply N2. now apply (gr_bounds _ _ (gr_u _ _ E1)).
    + intros M. apply upgrade_none in M. destruct M as [-> ->]. apply apply_none in E1'. subst s2. now split.
Qed.
Lemma activity_bound_same s i d r : activity_bound g rows s i d = Go r -> i_u (fst r) = i_u s /\ i_c (fst r) = i_c s /\ i_q (fst r) = i_q s.
Proof.
  unfold activity_bound. destruct (side d _).
  - intros E. injection E as <-. now cbn.
  - intros E. apply pbind_go in E. destruct E as (x & _ & E). injection E as <-. now cbn.
Qed.
Lemma set_to_bound_grow s i d s' : set_to_bound g rows s i d = Go s' -> grow s s'.
Proof.
  unfold set_to_bound. intros E. apply pbind_go in E. destruct E as ([s1 todo] & E1 & E). cbn [fst snd] in E.
  assert (G : grow (fst (s, @nil (nat * bdir))) (fst (s1, todo))).
  { revert E1. apply (foldP_rel _ (fun a b => grow (fst a) (fst b))); [intros; apply grow_refl|intros a b c; apply grow_trans|]. 
    intros [sa ta] [j c] [sb tb] _ EE. apply pbind_go in EE. destruct EE as (x & _ & EE).
    set (u0 := match u_acts (i_u sa) j (bmul d c) with Some _ => _ | None => _ end) in EE.
    assert (G0 : grow_u (i_u sa) u0) by (unfold u0; destruct (u_acts (i_u sa) j (bmul d c)); [apply move_grow|apply grow_u_refl]).
    destruct (update_bound g u0 j _ x) as [u ch] eqn:U. apply update_bound_grow in U. injection EE as <- _. cbn [fst].
    eapply grow_trans; [|apply push_grow]. apply with_u_grow. eapply grow_u_trans; [exact G0|apply U]. }
  cbn [fst] in G. eapply grow_trans; [exact G|]. revert E. apply foldP_rel; [apply grow_refl|apply grow_trans|].
  intros s0 [j e] s2 _. apply update_activity_counters_grow.
Qed.
Lemma replace_range d t b a t' shift : decide d t b a = Go (Some (ReplaceBy t' shift)) -> is_range t = true /\ is_range t' = false.
Proof.
  unfold decide. destruct (b ?= a)%Qc, d, t; try discriminate;
    try (destruct (a ?= b - r)%Qc; try discriminate); intros E; injection E as <- _; now split.
Qed.
Lemma propagate_row_progress s i d r : length (c_var (i_c s)) = n -> i < m -> propagate_row g rows s i d = Go r -> domain_progress s r.
Proof.
  intros L Li. unfold propagate_row. intros E. apply pbind_go in E. destruct E as ([s1 a] & E1 & E).
  apply activity_bound_same in E1. cbn [fst] in E1. destruct E1 as (U1 & C1 & Q1).
  assert (G1 : grow s s1) by now apply grow_same_uc.
  assert (M1 : measure (i_u s1) = measure (i_u s)) by now rewrite U1.
  apply pbind_go in E. destruct E as ([s2 [[remove vars] made]] & E2 & E). apply pbind_go in E. destruct E as ([s3 made'] & E3 & E).
  assert (P2 : grow s1 s2 /\ (remove = true \/ made = NoneMade \/ measure (i_u s2) < measure (i_u s1)) /\ (made = NoneMade -> remove = false /\ s2 = s1)).
  { unfold constraint_part in E2. apply pbind_go in E2. destruct E2 as (todo & D & E2). destruct todo as [[|t shift|]|].
    - injection E2 as <- <- <- <-. split; [apply grow_refl|]. split; [now left|discriminate].
    - injection E2 as <- <- <- <-. apply replace_range in D. destruct D as [D1 D2].
      assert (T : forall k, type_of g (change_b g (set_type (i_u s1) i t) i shift) k = if Nat.eqb k i then t else type_of g (i_u s1) k).
      { intros k. unfold type_of. cbn. unfold put. destruct (Nat.eqb k i); reflexivity. }
      assert (G : grow_u (i_u s1) (change_b g (set_type (i_u s1) i t) i shift)).
      { constructor; auto. intros k. rewrite T. destruct (Nat.eqb_spec k i) as [->|]; [congruence|auto]. }
      split; [now apply with_u_grow|]. split; [|discriminate]. right; right. cbn [with_u i_u].
      assert (R : ranges (change_b g (set_type (i_u s1) i t) i shift) < ranges (i_u s1)).
      { unfold ranges. apply (filter_lt _ _ _ i); [intros k _; apply (gr_types _ _ G)|apply In_range; lia|exact D1|]. rewrite T, Nat.eqb_refl. exact D2. }
      pose proof (missing_le _ _ G). unfold measure. cbn [u_removed u_gone change_b set_b set_type] in *. lia.
    - apply pbind_go in E2. destruct E2 as (s4 & E4 & E2). injection E2 as <- <- <- <-. apply set_to_bound_grow in E4.
      split; [assumption|]. split; [now left|discriminate].
    - injection E2 as <- <- <- <-. split; [apply grow_refl|]. split; [right; now left|now split]. }
  destruct P2 as (G2 & P2 & P2').
  assert (L2 : length (c_var (i_c s2)) = n) by (rewrite (gr_var _ _ G2), (gr_var _ _ G1); exact L).
  assert (P3 : grow s2 s3 /\ (made' = Meaningful -> made = Meaningful \/ measure (i_u s3) < measure (i_u s2)) /\
     (made' = NoneMade -> made = NoneMade /\ i_q s3 = i_q s2)).
  { assert (Z : Go (s2, made) = Go (s3, made') -> grow s2 s3 /\ (made' = Meaningful -> made = Meaningful \/ measure (i_u s3) < measure (i_u s2)) /\
     (made' = NoneMade -> made = NoneMade /\ i_q s3 = i_q s2)) by (intros K; injection K as <- <-; split; [apply grow_refl|split; auto]).
    destruct vars; [|now apply Z]. destruct (usable_side g (i_u s2) i d); [|now apply Z]. now apply variable_part_progress in E3. }
  destruct P3 as (G3 & P3 & P3').
  assert (G : grow s s3) by (eapply grow_trans; [exact G1|]; eapply grow_trans; eassumption).
  destruct remove.
  - apply pbind_go in E. destruct E as (s4 & E4 & E). injection E as <-. apply (row_loop_grow i (fun _ => false)) in E4.
    assert (G4 : grow s (mark_constraint s4 i)) by (eapply grow_trans; [exact G|]; eapply grow_trans; [exact E4|apply mark_constraint_grow]).
    split; [exact G4|]. cbn [fst snd]. split.
    + intros _ F. apply measure_gone; [apply gr_u, G4| |assumption]. pose proof (gr_gone _ _ (gr_u _ _ (grow_trans _ _ _ G E4))). cbn. rewrite app_length. cbn. lia.
    + intros M. destruct (P3' M) as [M' _]. destruct (P2' M') as [? _]. discriminate.
  - injection E as <-. split; [exact G|]. cbn [fst snd]. 
    pose proof (measure_le _ _ (gr_u _ _ G2)). pose proof (measure_le _ _ (gr_u _ _ G3)). split.
    + intros M _. destruct (P3 M) as [->|M3]; [destruct P2 as [P2|[P2|P2]]; try discriminate; lia|lia].
    + intros M. destruct (P3' M) as [M' Q3]. destruct (P2' M') as [_ ->]. congruence.
Qed.
Lemma domain_propagation_progress s i d r : length (c_var (i_c s)) = n -> i < m -> domain_propagation_rule g rows s i d = Go r -> domain_progress s r.
Proof.
  intros L Li. unfold domain_propagation_rule. destruct (side d _) as [|[|k]]; [now apply propagate_row_progress|now apply bound_one_progress|discriminate].
Qed.

Lemma drain_some {A} (f : A -> bool) : forall l x t, drain f l = (Some x, t) -> f x = true /\ length t < length l /\ In x l.
Proof.
  induction l as [|a l IH]; intros x t; cbn; [discriminate|]. destruct (f a) eqn:F.
  - intros E. injection E as <- <-. split; [assumption|]. split; [lia|now left].
  - intros E. destruct (IH _ _ E) as (H1 & H2 & H3). split; [assumption|]. split; [lia|now right].
Qed.
Lemma step_progress s r : length (c_var (i_c s)) = n -> length (c_con (i_c s)) = m -> presolve_step g rows s = Go r ->
  length (c_var (i_c (fst r))) = n /\ length (c_con (i_c (fst r))) = m /\
  match snd r with
  | Meaningful => fits (i_u (fst r)) -> measure (i_u (fst r)) < measure (i_u s)
  | NotMeaningful => measure (i_u (fst r)) <= measure (i_u s)
  | NoneMade => measure (i_u (fst r)) <= measure (i_u s) /\ length (q_act (i_q (fst r))) < length (q_act (i_q s))
  end.
Proof.
  intros Lv Lc. unfold presolve_step. cbv zeta. set (sub := match q_sub (i_q s) with [] => _ | _ :: _ => _ end). destruct sub as [o sub']. cbn [fst snd].
  assert (R : forall (s' : pindex) (r : pindex * change), grow s (fst r) -> length (c_var (i_c (fst r))) = n /\ length (c_con (i_c (fst r))) = m).
  { intros _ r0 [G1 G2 G3]. split; congruence. }
  destruct o as [j|].
  { intros E. apply pbind_go in E. destruct E as (s1 & E1 & E). injection E as <-. apply fixed_variable_measure in E1. destruct E1 as [[G1 G2 G3] M].
    cbn [fst snd with_q i_u i_c] in *. split; [congruence|]. split; [congruence|exact M]. }
  destruct (drain (con_active (i_c s)) (q_bound (i_q s))) as [o1 t1]. cbn [fst snd]. destruct o1 as [i|].
  { intros E. apply pbind_go in E. destruct E as (s1 & E1 & E). injection E as <-. apply bound_constraint_measure in E1. destruct E1 as [[G1 G2 G3] M].
    cbn [fst snd with_q i_u i_c] in *. split; [congruence|]. split; [congruence|exact M]. }
  destruct (drain (var_active (i_c s)) (q_slack (i_q s))) as [o2 t2]. cbn [fst snd]. destruct o2 as [j|].
  { intros E. apply pbind_go in E. destruct E as (s1 & E1 & E). injection E as <-. apply slack_measure in E1. destruct E1 as (G2 & G3 & M).
    cbn [fst snd with_q i_u i_c] in *. split; [congruence|]. split; [congruence|exact M]. }
  destruct (drain (fun e => con_active (i_c s) (fst e)) (q_act (i_q s))) as [o3 t3] eqn:D. cbn [fst snd]. destruct o3 as [[i d]|].
  - apply drain_some in D. destruct D as (A & LT & _). intros E. apply domain_propagation_progress in E; [|exact Lv|].
    + destruct E as [[G1 G2 G3] [M1 M2]]. cbn [fst snd with_q i_u i_c i_q q_act] in *. split; [congruence|]. split; [congruence|].
      destruct (snd r); [intros F; now apply M1|now apply measure_le|split; [now apply measure_le|]].
      rewrite M2 by reflexivity. exact LT.
    + cbn in A. unfold con_active in A. apply negb_true_iff, Nat.eqb_neq in A. rewrite <- Lc. now apply nth_nonzero_lt.
  - intros E. injection E as <-. cbn. split; [assumption|]. split; [assumption|lia].
Qed.

Lemma queue_variable_fuel s j : queue_variable g s j <> PFuel.
Proof. unfold queue_variable, optimize_column. nofuel. Qed.
Lemma queue_constraint_fuel s j : queue_constraint g s j <> PFuel.
Proof. unfold queue_constraint. nofuel. Qed.
Lemma counters_fuel s j d : update_activity_counters g s j d <> PFuel.
Proof. unfold update_activity_counters, lower_counter, dec_act. nofuel. Qed.
Lemma apply_change_fuel s j d c : apply_change g s j d c <> PFuel.
Proof. pose proof counters_fuel. unfold apply_change, after_bound_change. nofuel. Qed.
Lemma step_no_fuel s : presolve_step g rows s <> PFuel.
Proof.
  pose proof queue_variable_fuel. pose proof queue_constraint_fuel. pose proof counters_fuel. pose proof apply_change_fuel.
  assert (forall s j, fixed_variable_rule g s j <> PFuel) by (intros; unfold fixed_variable_rule, dec_var, dec_con, dec; nofuel).
  assert (forall s j, bound_constraint_rule g rows s j <> PFuel) by (intros; unfold bound_constraint_rule, dec_var, dec_con, dec; nofuel).
  assert (forall s j, slack_rule g rows s j <> PFuel).
  { intros. unfold slack_rule, slack_activity. apply nofuel_bind; [nofuel|]. intros [i c]. destruct (slack_case _ _ _ _) as [[t b]|]; unfold dec_var, dec_con, dec_act, dec; nofuel. }
  assert (forall s j d a, constraint_part g rows s j d a <> PFuel) by (intros; unfold constraint_part, decide, set_to_bound; nofuel).
  assert (forall s i r a d c, variable_part g rows s i r a d c <> PFuel) by (intros; unfold variable_part; nofuel).
  assert (forall s i d, activity_bound g rows s i d <> PFuel) by (intros; unfold activity_bound, activity_sum; nofuel).
  assert (forall s i, remove_constraint_values g rows s i <> PFuel) by (intros; unfold remove_constraint_values, dec_var, dec_con, dec; nofuel).
  assert (forall s i d, domain_propagation_rule g rows s i d <> PFuel).
  { intros. unfold domain_propagation_rule, propagate_row, bound_one. nofuel. }
  unfold presolve_step. nofuel.
Qed.
Lemma nr_remaining_go u k : nr_remaining g u = Go k -> fits u /\ k <= n + m.
Proof.
  unfold nr_remaining, fits. destruct (Nat.ltb n (length (u_removed u)) || Nat.ltb m (length (u_gone u)))%bool eqn:E; [discriminate|].
  apply orb_false_iff in E. destruct E as [E1 E2]. apply Nat.ltb_ge in E1, E2. intros K. injection K as <-. lia.
Qed.
Lemma nr_remaining_other u : ~ fits u -> nr_remaining g u = PPanic.
Proof.
  unfold nr_remaining, fits. intros H. destruct (Nat.ltb n (length (u_removed u)) || Nat.ltb m (length (u_gone u)))%bool eqn:E; [reflexivity|].
  apply orb_false_iff in E. destruct E as [E1 E2]. apply Nat.ltb_ge in E1, E2. exfalso. apply H. lia.
Qed.
Theorem loop_ends : forall s stale, length (c_var (i_c s)) = n -> length (c_con (i_c s)) = m ->
  exists fuel0, forall fuel, fuel0 <= fuel -> presolve_loop g rows fuel stale s <> PFuel.
Proof.
  assert (K : forall a b c s stale, length (c_var (i_c s)) = n -> length (c_con (i_c s)) = m ->
     measure (i_u s) <= a -> n + m - stale <= b -> length (q_act (i_q s)) <= c ->
     exists fuel0, forall fuel, fuel0 <= fuel -> presolve_loop g rows fuel stale s <> PFuel).
  { intros a. induction a as [a IHa] using lt_wf_ind. intros b. induction b as [b IHb] using lt_wf_ind. intros c. induction c as [c IHc] using lt_wf_ind.
    intros s stale Lv Lc Ha Hb Hc.
    destruct (queues_empty (i_q s)) eqn:Q; [exists 0; intros [|fuel] _; cbn; rewrite Q; discriminate|].
    destruct (nr_remaining g (i_u s)) as [k|v| |] eqn:N; [|exists 0; intros [|fuel] _; cbn; rewrite Q, N; cbn; discriminate..|].
    2:{ exfalso. unfold nr_remaining in N. destruct (_ || _)%bool; discriminate. }
    destruct (Nat.leb k stale) eqn:KS; [exists 0; intros [|fuel] _; cbn; rewrite Q, N; cbn; rewrite KS; discriminate|].
    apply Nat.leb_gt in KS. pose proof (nr_remaining_go _ _ N) as [_ KN].
    assert (U : forall f, presolve_loop g rows (S f) stale s = pbind (presolve_step g rows s) (fun r => match snd r with
      | Meaningful => presolve_loop g rows f 0 (fst r) | NotMeaningful => presolve_loop g rows f (S stale) (fst r)
      | NoneMade => presolve_loop g rows f stale (fst r) end)).
    { intros f. cbn. rewrite Q, N. cbn. apply Nat.leb_gt in KS. rewrite KS. reflexivity. }
    destruct (presolve_step g rows s) as [[s' ch]|v| |] eqn:E.
    2,3: exists 1; intros [|f] Lf; [lia|]; rewrite U; cbn; discriminate.
    2:{ exists 1. intros [|f] Lf; [lia|]. rewrite U. cbn. exfalso. clear -E.
        assert (PF : presolve_step g rows s <> PFuel); [|contradiction].
        apply step_no_fuel. }
    pose proof (step_progress s (s', ch) Lv Lc E) as (Lv' & Lc' & P). cbn [fst snd] in *.
    assert (D : exists fuel0, forall fuel, fuel0 <= fuel -> match ch with
        | Meaningful => presolve_loop g rows fuel 0 s'
        | NotMeaningful => presolve_loop g rows fuel (S stale) s'
        | NoneMade => presolve_loop g rows fuel stale s' end <> PFuel).
    { destruct ch.
      - destruct (Nat.leb_spec (length (u_removed (i_u s'))) n); [destruct (Nat.leb_spec (length (u_gone (i_u s'))) m)|].
        + apply (IHa (measure (i_u s'))) with (b := n + m) (c := length (q_act (i_q s'))); try assumption; try lia. specialize (P ltac:(split; assumption)). lia.
        + exists 0. intros [|f] _; cbn; (destruct (queues_empty (i_q s')); [discriminate|]); rewrite nr_remaining_other by (unfold fits; lia); cbn; discriminate.
        + exists 0. intros [|f] _; cbn; (destruct (queues_empty (i_q s')); [discriminate|]); rewrite nr_remaining_other by (unfold fits; lia); cbn; discriminate.
      - apply (IHb (n + m - S stale)) with (c := length (q_act (i_q s'))); try assumption; try lia.
      - destruct P as [P1 P2]. apply (IHc (length (q_act (i_q s')))); try assumption; try lia. }
    destruct D as [f0 D]. exists (S f0). intros [|f] Lf; [lia|]. rewrite U. cbn [pbind fst snd]. specialize (D f ltac:(lia)). destruct ch; exact D. }
  intros s stale Lv Lc. exact (K _ _ _ s stale Lv Lc (le_n _) (le_n _) (le_n _)).
Qed.
End Term.

(** ** The result does not depend on the fuel once there is enough of it *)
Lemma loop_more g rows : forall fuel stale s k, presolve_loop g rows fuel stale s <> PFuel -> presolve_loop g rows (k + fuel) stale s = presolve_loop g rows fuel stale s.
Proof.
  induction fuel as [|fuel IH]; intros stale s k H.
  - rewrite Nat.add_0_r. destruct k as [|k]; [reflexivity|]. cbn in *. destruct (queues_empty (i_q s)); [reflexivity|].
    destruct (nr_remaining g (i_u s)); cbn in *; try reflexivity. destruct (Nat.leb a stale); [reflexivity|contradiction].
  - rewrite Nat.add_succ_r. cbn in *. destruct (queues_empty (i_q s)); [reflexivity|].
    destruct (nr_remaining g (i_u s)); cbn in *; try reflexivity. destruct (Nat.leb a stale); [reflexivity|].
    destruct (presolve_step g rows s) as [[s' ch]| | |]; cbn in *; try reflexivity. destruct ch; now apply IH.
Qed.
Lemma counters_new_length g rows : length (c_var (counters_new g rows)) = length (g_vars g) /\ length (c_con (counters_new g rows)) = g_rows g.
Proof. cbn. unfold range. now rewrite !map_length, !seq_length, !Nat.sub_0_r. Qed.
Lemma transpose_no_fuel : forall cols j rows, transpose_from j cols rows <> Fuel.
Proof.
  assert (K : forall j l rows, push_column j l rows <> Fuel).
  { intros j l. induction l as [|[i v] l IH]; intros rows; cbn; [discriminate|].
    destruct (index rows i) eqn:E; cbn; [apply IH|discriminate|unfold index in E; destruct (nth_error rows i); discriminate]. }
  induction cols as [|c cols IH]; intros j rows; cbn; [discriminate|].
  specialize (K j c rows). destruct (push_column j c rows); cbn; [apply IH|discriminate|contradiction].
Qed.
Lemma updates_no_fuel g c : updates_new g c <> PFuel.
Proof. unfold updates_new, empty_column, empty_row, optimize_column. nofuel. Qed.
Theorem changes_end g : exists result fuel0, result <> PFuel /\ forall fuel, fuel0 <= fuel -> presolve_changes fuel g = result.
Proof.
  unfold presolve_changes. pose proof (transpose_no_fuel (g_cols g) 0 (repeat [] (g_rows g))) as T.
  destruct (transpose_from 0 (g_cols g) (repeat [] (g_rows g))) as [rows| |]; [|exists PPanic, 0; split; [discriminate|reflexivity]|contradiction].
  cbn [lift pbind]. unfold index_new. pose proof (updates_no_fuel g (counters_new g rows)) as U.
  destruct (updates_new g (counters_new g rows)) as [u|v| |]; cbn [pbind];
    [|exists (Stop v), 0; split; [discriminate|reflexivity]|exists PPanic, 0; split; [discriminate|reflexivity]|contradiction].
  set (s := mk_pindex _ u _ _). destruct (counters_new_length g rows) as [L1 L2].
  destruct (loop_ends g rows s 0 L1 L2) as [f0 F].
  exists (pbind (presolve_loop g rows f0 0 s) (fun s => Go (i_u s))), f0. specialize (F f0 (le_n _)) as F0. split.
  - destruct (presolve_loop g rows f0 0 s); cbn; [discriminate|discriminate|discriminate|contradiction].
  - intros fuel L. replace fuel with ((fuel - f0) + f0) by lia. now rewrite loop_more.
Qed.
