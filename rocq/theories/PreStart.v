(** * Presolving: the start, with empty rows and columns taken out *)
From Verif Require Import SpecGeneral SparseP LinAlg KindP InitP.
From Verif Require Export PreLoop.
Local Open Scope Qc_scope.

(** ** Rows and columns *)
Lemma combination_den k l x : (forall i v, In (i, v) l -> (i < k)%nat) -> combination l x = sum k (fun i => den l i * x i).
Proof.
  intros H. rewrite <- (esum_den k l x H). clear H. induction l as [|[i v] l IH]; [reflexivity|]. cbn [combination]. rewrite IH. reflexivity.
Qed.
Lemma fwf_nd lo k l : fwf lo k l -> NoDup (map fst l).
Proof.
  revert lo. induction l as [|[i v] l IH]; intros lo H; cbn; [constructor|]. cbn in H. destruct H as (H1 & H2 & H3). constructor; [|now apply (IH (S i))].
  intros X. apply in_map_iff in X. destruct X as ([i' v'] & E & X). cbn in E. subst i'. apply (den_In (S i) k) in X; [lia|assumption].
Qed.
Lemma matrix_from g : general_ok g -> exists rows, transpose_from 0 (g_cols g) (repeat [] (g_rows g)) = Ok rows /\ matrix_ok g rows /\
  forall i x, (i < g_rows g)%nat -> combination (nth i rows []) x = row_value g x i.
Proof.
  intros G. destruct (transpose_spec (g_rows g) (coefficient g) (g_cols g) 0 (repeat [] (g_rows g))) as (rows & E & L & R).
  - intros l Hl. rewrite (gok_cols _ G) in Hl. split; [now apply (gok_sorted _ G)|reflexivity].
  - split; [apply repeat_length|]. intros i Hi. rewrite nth_repeat. split; [exact Logic.I|lia].
  - exists rows. cbn [Nat.add] in R. rewrite (gok_cols _ G) in R.
    assert (C : forall j, wfs (g_rows g) (nth j (g_cols g) [])).
    { intros j. destruct (Nat.lt_ge_cases j (nr_vars g)) as [H|H]; [now apply (gok_sorted _ G)|]. rewrite nth_overflow; [exact Logic.I|]. now rewrite (gok_cols _ G). }
    assert (W : forall i, wfs (nr_vars g) (nth i rows [])).
    { intros i. destruct (Nat.lt_ge_cases i (g_rows g)) as [H|H]; [now apply R|]. rewrite nth_overflow; [exact Logic.I|]. now rewrite L. }
    split; [assumption|]. split.
    + constructor.
      * apply (gok_cols _ G).
      * assumption.
      * intros i j c. split; intros H.
        -- destruct (Nat.lt_ge_cases i (g_rows g)) as [Hi|Hi]; [|rewrite nth_overflow in H by (now rewrite L); contradiction].
           destruct (den_In 0 _ _ _ _ (W i) H) as (D & Z & Lj). apply (den_In_iff (g_rows g)); [apply C|]. split; [|assumption]. rewrite <- D. symmetry. now apply R.
        -- destruct (Nat.lt_ge_cases j (nr_vars g)) as [Hj|Hj]; [|rewrite nth_overflow in H by (now rewrite (gok_cols _ G)); contradiction].
           destruct (den_In 0 _ _ _ _ (C j) H) as (D & Z & Li). apply (den_In_iff (nr_vars g)); [apply W|]. split; [|assumption]. rewrite <- D. apply R; [lia|assumption].
      * intros j. exact (fwf_nd _ _ _ (C j)).
      * intros i. exact (fwf_nd _ _ _ (W i)).
      * intros i j c H. now destruct (den_In 0 _ _ _ _ (C j) H) as (D & Z & Li).
    + intros i x Hi. rewrite (combination_den (nr_vars g)).
      * apply sum_ext. intros j Hj. f_equal. now apply R.
      * intros j c H. destruct (den_In 0 _ _ _ _ (W i) H) as (D & Z & Lj). apply Lj.
Qed.

Section Start.
Variables (g : general) (rows : list svec).
Local Notation n := (nr_vars g).
Local Notation m := (g_rows g).
Local Notation row i := (nth i rows []).
Local Notation col j := (nth j (g_cols g) []).
Local Notation step := (step g rows).
Local Notation feas := (feas g rows).
Local Notation vcost := (vcost g).
Local Notation implied := (implied g rows).
Local Notation tidy := (tidy g rows).
Local Notation verdict_holds := (verdict_holds g rows).
Hypothesis G : general_ok g.
Hypothesis M : matrix_ok g rows.
Hypothesis RV : forall i x, (i < m)%nat -> combination (row i) x = row_value g x i.

(** ** The whole program *)
Definition whole : view := mk_view (fun j => Nat.ltb j n) (fun i => Nat.ltb i m) no_updates.
Lemma pwithin_whole j x : pwithin g no_updates j x <-> in_bounds (var g j) x.
Proof.
  unfold pwithin, pbound, in_bounds. cbn. split.
  - intros H. split; [exact (H Lower)|exact (H Upper)].
  - intros [H1 H2] [|]; assumption.
Qed.
Lemma filter_every {A} (p : A -> bool) l : (forall x, In x l -> p x = true) -> filter p l = l.
Proof. induction l as [|a l IH]; intros H; cbn; [reflexivity|]. rewrite (H a (or_introl eq_refl)), IH; [reflexivity|]. intros x X. apply H. now right. Qed.
Lemma row_lt i j c : In (j, c) (row i) -> (i < m)%nat /\ (j < n)%nat.
Proof. intros H. apply (mo_in _ _ M) in H. now apply (mo_lt _ _ _ _ _ M) in H. Qed.
Lemma only_all i : only (on_var whole) (row i) = row i.
Proof. apply filter_every. intros [j c] H. apply row_lt in H. cbn. apply Nat.ltb_lt. lia. Qed.
Lemma feas_whole x : feas whole x <-> gfeasible g x.
Proof.
  split.
  - intros [F1 F2]. split.
    + intros i Hi. specialize (F2 i). cbn in F2. rewrite <- (RV i x Hi). rewrite <- (only_all i). apply F2. now apply Nat.ltb_lt.
    + intros j Hj. apply pwithin_whole. apply (F1 j). cbn. now apply Nat.ltb_lt.
  - intros [F1 F2]. split.
    + intros j Hj. apply pwithin_whole. apply F2. now apply Nat.ltb_lt.
    + intros i Hi. rewrite only_all. cbn in Hi. apply Nat.ltb_lt in Hi. rewrite (RV i x Hi). now apply F1.
Qed.
Lemma vcost_whole x : vcost whole x = gcost g x.
Proof.
  unfold PreView.vcost, gcost. cbn [whole upds no_updates u_fixed on_var]. replace (g_fixed g + 0) with (g_fixed g) by ring. f_equal. apply sum_ext. intros j Hj.
  rewrite (proj2 (Nat.ltb_lt _ _) Hj). reflexivity.
Qed.
Lemma no_acts_tight u : (forall j d, u_acts u j d = None) -> tight g u.
Proof. intros H j d a v B P. rewrite bound_of_cases, H in B. assert (a = v) by congruence. subst. apply bound_holds_refl. Qed.
Lemma no_acts_implied w : (forall j d, u_acts (upds w) j d = None) -> implied w.
Proof. intros H x [F _] j Hj d. rewrite bound_of_cases, H. now apply F. Qed.

(** ** The counters *)
Lemma nth_map_range {A} (f : nat -> A) k i d : (i < k)%nat -> nth i (map f (range 0 k)) d = f i.
Proof.
  intros H. unfold range. rewrite Nat.sub_0_r. rewrite (nth_indep _ d (f 0%nat)) by (now rewrite map_length, seq_length). rewrite map_nth, seq_nth by assumption. reflexivity.
Qed.
Lemma range_length k : length (range 0 k) = k. Proof. unfold range. rewrite seq_length. lia. Qed.
Definition c0 : counters := counters_new g rows.
Lemma c0_var j : nth j (c_var c0) 0%nat = length (col j).
Proof.
  cbn [c0 counters_new c_var]. destruct (Nat.lt_ge_cases j n) as [H|H].
  - now rewrite nth_map_range.
  - rewrite nth_overflow by (now rewrite map_length, range_length). rewrite (nth_overflow (g_cols g)); [reflexivity|]. now rewrite (mo_cols _ _ M).
Qed.
Lemma c0_con i : nth i (c_con c0) 0%nat = length (row i).
Proof.
  cbn [c0 counters_new c_con]. destruct (Nat.lt_ge_cases i m) as [H|H].
  - now rewrite nth_map_range.
  - rewrite nth_overflow by (now rewrite map_length, range_length). rewrite (nth_overflow rows); [reflexivity|]. now rewrite (mo_rows _ _ M).
Qed.
Lemma count_missing_fold d : forall l a, side d (fold_left (fun '(l, h) '(j, c) =>
    ((l + is_missing (vbound (gvar g j) (bmul Lower c)))%nat, (h + is_missing (vbound (gvar g j) (bmul Upper c)))%nat)) l a) = (side d a + length (filter (lacks_bound g no_updates d) l))%nat.
Proof.
  induction l as [|[j c] l IH]; intros [a b]; cbn [fold_left filter length]; [lia|]. rewrite IH.
  assert (E : lacks_bound g no_updates d (j, c) = match vbound (gvar g j) (bmul d c) with None => true | Some _ => false end) by reflexivity. rewrite E.
  destruct d; cbn [side fst snd]; [destruct (vbound (gvar g j) (bmul Lower c))|destruct (vbound (gvar g j) (bmul Upper c))]; cbn [is_missing length]; lia.
Qed.
Lemma c0_act i d : (i < m)%nat -> side d (nth i (c_act c0) (0, 0)%nat) = length (filter (lacks_bound g no_updates d) (row i)).
Proof.
  intros H. cbn [c0 counters_new c_act]. rewrite nth_map_range by assumption. unfold count_missing. rewrite count_missing_fold. destruct d; reflexivity.
Qed.
Lemma active_c0 j : var_active c0 j = negb (Nat.eqb (length (col j)) 0). Proof. unfold var_active. now rewrite c0_var. Qed.
Lemma active_c0' i : con_active c0 i = negb (Nat.eqb (length (row i)) 0). Proof. unfold con_active. now rewrite c0_con. Qed.
Lemma empty_col_row j : col j = [] -> forall i, ~ In j (map fst (row i)).
Proof. intros E i H. apply in_map_iff in H. destruct H as ([k c] & K & H). cbn in K. subst k. apply (mo_in _ _ M) in H. rewrite E in H. contradiction. Qed.

(** ** Empty columns and rows *)
Lemma empty_columns_spec : forall l u, (forall k, In k l -> feasible_value g no_updates k <> None) ->
  pspec (foldP (empty_column g) l u) (fun u' => exists sol, map fst sol = l /\ u' = add_solved g u sol /\ forall k v, In (k, v) sol -> eliminated g no_updates k v)
    (fun v => v = VUnbounded /\ exists k, In k l /\ optimize_column g (v_cost (gvar g k)) (bound_of g no_updates k Lower) (bound_of g no_updates k Upper) = Stop VUnbounded) False.
Proof.
  induction l as [|k l IH]; intros u H; cbn [foldP].
  - cbn [pspec]. exists []. split; [reflexivity|]. split; [now rewrite add_solved_nil|]. intros k v [].
  - assert (FIN : forall v u1, u1 = add_solved g u [(k, v)] -> eliminated g no_updates k v ->
      pspec (foldP (empty_column g) l u1) (fun u' => exists sol, map fst sol = k :: l /\ u' = add_solved g u sol /\ forall k v, In (k, v) sol -> eliminated g no_updates k v)
        (fun v => v = VUnbounded /\ exists k', In k' (k :: l) /\ optimize_column g (v_cost (gvar g k')) (bound_of g no_updates k' Lower) (bound_of g no_updates k' Upper) = Stop VUnbounded) False).
    { intros v u1 -> EL. eapply pspec_impl; [apply IH| | |auto].
      - intros k' Hk. apply H. now right.
      - intros u' (sol & E1 & E2 & E3). exists ((k, v) :: sol). split; [cbn; now rewrite E1|]. split; [rewrite E2, add_solved_app; reflexivity|].
        intros k' v' [E|X]; [injection E as <- <-; assumption|now apply E3].
      - intros v' (E & k' & X & Y). split; [assumption|]. exists k'. split; [now right|assumption]. }
    unfold empty_column at 1. destruct (qzero (v_cost (gvar g k))) eqn:Z; qb.
    + specialize (H k (or_introl eq_refl)). destruct (feasible_value g no_updates k) as [v|] eqn:Fv; [|congruence]. cbn [unwrap pbind fst snd].
      apply (FIN v); [|left; now split]. unfold add_solved. cbn. rewrite Z. reflexivity.
    + destruct (optimize_column g (v_cost (gvar g k)) (v_lower (gvar g k)) (v_upper (gvar g k))) as [v|v| |] eqn:OC; cbn [pbind fst snd].
      * apply (FIN v); [reflexivity|right; now split].
      * cbn [pspec]. destruct (optimize_column_stop _ _ _ _ _ OC) as [-> _]. split; [reflexivity|]. exists k. split; [now left|exact OC].
      * exfalso. unfold optimize_column in OC. destruct (qzero (v_cost (gvar g k))) eqn:Z'; qb; [contradiction|].
        destruct (match g_objective g with Minimize => _ | Maximize => _ end); discriminate.
      * exfalso. unfold optimize_column in OC. destruct (qzero (v_cost (gvar g k))) eqn:Z'; [discriminate|].
        destruct (match g_objective g with Minimize => _ | Maximize => _ end); discriminate.
Qed.
Lemma empty_rows_spec : forall l u,
  pspec (foldP (empty_row g) l u) (fun u' => u' = add_gone u l /\ forall i, In i l -> rel_holds (row_type g i) (nthq (g_b g) i) 0)
    (fun v => v = VInfeasible /\ exists i, In i l /\ ~ rel_holds (row_type g i) (nthq (g_b g) i) 0) False.
Proof.
  induction l as [|i l IH]; intros u; cbn [foldP].
  - cbn [pspec]. split; [now rewrite add_gone_nil|intros i []].
  - unfold empty_row at 1. destruct (empty_feasible (nthq (g_b g) i) (nth i (g_types g) Equal)) eqn:E; cbn [pbind].
    + apply empty_feasible_ok in E. eapply pspec_impl; [apply IH| | |auto].
      * intros u' [-> H]. split; [exact (add_gone_app u [i] l)|]. intros k [<-|K]; [assumption|now apply H].
      * intros v (E' & k & K & N). split; [assumption|]. exists k. split; [now right|assumption].
    + cbn [pspec]. split; [reflexivity|]. exists i. split; [now left|]. intros X. apply empty_feasible_ok in X. unfold row_type in X. congruence.
Qed.

Lemma start_values k : (k < n)%nat -> feasible_value g no_updates k <> None.
Proof.
  intros H. unfold feasible_value. change (bound_of g no_updates k Lower) with (v_lower (var g k)). change (bound_of g no_updates k Upper) with (v_upper (var g k)).
  destruct (v_lower (var g k)) as [l|] eqn:El, (v_upper (var g k)) as [h|] eqn:Eh; try discriminate.
  destruct (qleb l h) eqn:E; [discriminate|]. qb. pose proof (gok_domain _ G k l h H El Eh). qlra.
Qed.
Lemma alive_every (f : nat -> nat) l : (forall i, In i l -> f i <> 0%nat) -> alive f l = l.
Proof. intros H. apply filter_every. intros i Hi. specialize (H i Hi). now destruct (Nat.eqb_spec (f i) 0). Qed.

Lemma index_new_spec : pspec (index_new g rows) (fun s => tidy nobody s /\ step whole (view_of s) /\ implied (view_of s) /\ forall j e, u_acts (i_u s) j e = None) (verdict_holds whole) False.
Proof.
  unfold index_new, updates_new. fold c0.
  set (el := filter (fun j => negb (var_active c0 j)) (range 0 (length (g_vars g)))).
  set (er := filter (fun i => negb (con_active c0 i)) (range 0 m)).
  assert (EL : forall k, In k el <-> (k < n)%nat /\ col k = []).
  { intros k. unfold el. rewrite filter_In, In_range, active_c0, negb_involutive, Nat.eqb_eq, length_zero_iff_nil. unfold nr_vars. split; intros [H1 H2]; (split; [lia|assumption]). }
  assert (ER : forall k, In k er <-> (k < m)%nat /\ row k = []).
  { intros k. unfold er. rewrite filter_In, In_range, active_c0', negb_involutive, Nat.eqb_eq, length_zero_iff_nil. split; intros [H1 H2]; (split; [lia|assumption]). }
  eapply pspec_bind with (Q := fun u => exists sol, map fst sol = el /\ u = add_gone (add_solved g no_updates sol) er /\ (forall k v, In (k, v) sol -> eliminated g no_updates k v) /\
     forall i, In i er -> rel_holds (row_type g i) (nthq (g_b g) i) 0).
  { eapply pspec_bind; [eapply pspec_impl; [apply (empty_columns_spec el no_updates)|intros u X; exact X| |auto]|].
    - intros k Hk. apply EL in Hk. now apply start_values.
    - intros v (-> & k & Hk & OC). apply EL in Hk. destruct Hk as [Lk Ck]. apply (free_unbounded g rows whole k); try assumption.
      + now apply Nat.ltb_lt.
      + intros i _. now apply empty_col_row.
      + now apply no_acts_implied.
      + now apply no_acts_tight.
    - cbn beta. intros u (sol & E1 & E2 & E3). eapply pspec_impl; [apply (empty_rows_spec er u)| | |auto].
      + intros u' [-> H]. exists sol. split; [assumption|]. split; [now rewrite E2|]. now split.
      + intros v (-> & i & Hi & N). apply ER in Hi. destruct Hi as [Li Ri]. intros x [_ F]. apply N. specialize (F i (proj2 (Nat.ltb_lt _ _) Li)). rewrite only_all, Ri in F. exact F. }
  intros u (sol & MS & -> & ELIM & RH). cbn [pspec]. set (u := add_gone (add_solved g no_updates sol) er).
  set (s := mk_pindex (queues_new g c0) u c0 (repeat (None, None) m)).
  assert (CV : forall j, cv s j = length (col j)) by (intros j; apply c0_var).
  assert (CC : forall i, cc s i = length (row i)) by (intros i; apply c0_con).
  assert (AR : forall i, active_row rows c0 i = row i).
  { intros i. apply filter_every. intros [j c] H. rewrite active_c0. apply (mo_in _ _ M) in H. destruct (col j); [contradiction|reflexivity]. }
  assert (T : tidy nobody s).
  { constructor.
    - cbn. now rewrite map_length, range_length.
    - cbn. now rewrite map_length, range_length.
    - split.
      + intros j _. rewrite CV. rewrite alive_every; [unfold in_col; now rewrite map_length|]. intros i Hi. apply (in_swap g rows M) in Hi. rewrite CC. unfold in_row in Hi. destruct (row i); [contradiction|discriminate].
      + intros i _. rewrite CC. rewrite alive_every; [unfold in_row; now rewrite map_length|]. intros j Hj. apply (in_swap g rows M) in Hj. rewrite CV. unfold in_col in Hj. destruct (col j); [contradiction|discriminate].
    - cbn. rewrite map_map. rewrite (map_ext _ fst) by (intros [? ?]; reflexivity). rewrite MS. apply NoDup_filter. unfold range. apply seq_NoDup.
    - intros j. cbn. rewrite map_map. rewrite (map_ext _ fst) by (intros [? ?]; reflexivity). rewrite MS, EL. change (nth j _ 0%nat) with (cv s j). rewrite CV, length_zero_iff_nil. unfold nobody. tauto.
    - cbn. apply NoDup_filter. unfold range. apply seq_NoDup.
    - intros i. cbn. rewrite ER. change (nth i _ 0%nat) with (cc s i). rewrite CC, length_zero_iff_nil. tauto.
    - intros i H. cbn. rewrite <- in_rev. apply filter_In. split.
      + apply In_range. rewrite CC in H. destruct (Nat.lt_ge_cases i m) as [X|X]; [lia|]. rewrite nth_overflow in H by (now rewrite (mo_rows _ _ M)). discriminate.
      + unfold is_one. apply Nat.eqb_eq. exact H.
    - intros i H. cbn in H. rewrite <- in_rev in H. apply filter_In in H. destruct H as [_ H]. unfold is_one in H. apply Nat.eqb_eq in H. change (cc s i = 1%nat) in H. lia.
    - intros j H. cbn in H. rewrite <- in_rev in H. apply filter_In in H. destruct H as [_ H]. apply andb_true_iff in H. destruct H as [H1 H2]. unfold is_one in H1. apply Nat.eqb_eq in H1. change (cv s j = 1%nat) in H1. qb. split; [lia|assumption].
    - intros j H. cbn in H. rewrite <- in_rev in H. apply filter_In in H. destruct H as [_ H]. apply andb_true_iff in H. destruct H as [_ H].
      change (crossed g no_updates j). apply fixed_crossed. destruct (fixed_value g no_updates j); discriminate.
    - intros j d _. reflexivity.
    - apply no_acts_tight. reflexivity.
    - intros i r Ci. change (type_of g (i_u s) i) with (row_type g i). apply (gok_ranges _ G). rewrite CC in Ci. destruct (Nat.lt_ge_cases i m) as [X|X]; [lia|]. rewrite nth_overflow in Ci by (now rewrite (mo_rows _ _ M)). contradiction.
    - assert (CA : forall i d, (i < m)%nat -> ca s i d = missing g rows s i d).
      { intros i d Hi. unfold missing. cbn [s i_c]. rewrite AR. exact (c0_act i d Hi). }
      assert (LT : forall i, cc s i <> 0%nat -> (i < m)%nat).
      { intros i Ci. rewrite CC in Ci. destruct (Nat.lt_ge_cases i m) as [X|X]; [lia|]. rewrite nth_overflow in Ci by (now rewrite (mo_rows _ _ M)). contradiction. }
      constructor.
      + cbn. now rewrite map_length, range_length.
      + cbn. apply repeat_length.
      + intros i d Ci. apply CA. now apply LT.
      + intros i d Ci K. exfalso. apply K. unfold cache. cbn. rewrite nth_repeat. destruct d; reflexivity.
      + intros i d H Ci. cbn [s i_q queues_new q_act] in H. apply in_flat_map in H. destruct H as (k & Hk & H). unfold ca. cbn [s i_c].
        destruct (nth k (c_act c0) (0, 0)%nat) as [l h] eqn:E. destruct (Nat.ltb 1 (nth k (c_con c0) 0%nat)); [|contradiction].
        apply in_app_or in H. destruct H as [H|H].
        * destruct (Nat.leb_spec l 1); [|contradiction]. destruct H as [H|[]]. injection H as <- <-. rewrite E. exact H0.
        * destruct (Nat.leb_spec h 1); [|contradiction]. destruct H as [H|[]]. injection H as <- <-. rewrite E. exact H0. }
  set (w1 := mk_view (on_var whole) (con_active c0) (add_gone no_updates er)).
  assert (S1 : step whole w1).
  { apply step_same; try reflexivity. intros x. split.
    - intros [F1 F2]. split; [exact F1|]. intros i Hi. apply (F2 i). cbn in *. apply Nat.ltb_lt. rewrite active_c0' in Hi. destruct (Nat.lt_ge_cases i m) as [X|X]; [assumption|]. rewrite nth_overflow in Hi by (now rewrite (mo_rows _ _ M)). discriminate.
    - intros [F1 F2]. split; [exact F1|]. intros i Hi. cbn in Hi. apply Nat.ltb_lt in Hi. destruct (row i) as [|e l] eqn:R.
      + cbn. apply RH. apply ER. now split.
      + rewrite <- R. apply (F2 i). cbn. rewrite active_c0', R. reflexivity. }
  assert (I1 : implied w1) by (now apply no_acts_implied).
  assert (S2 : step w1 (view_of s)).
  { refine (proj1 (_ : cstep g rows (fun _ => True) w1 (view_of s))). apply (step_free_list g rows sol).
    - rewrite MS. apply NoDup_filter. unfold range. apply seq_NoDup.
    - now apply no_acts_tight.
    - assumption.
    - intros k. cbn [view_of s i_c on_var w1 whole]. rewrite MS. rewrite active_c0. apply eq_true_iff_eq. rewrite andb_true_iff, !negb_true_iff, Nat.ltb_lt.
      rewrite memb_false, EL, Nat.eqb_neq, length_zero_iff_nil. split.
      + intros H. split; [|tauto]. destruct (Nat.lt_ge_cases k n) as [X|X]; [assumption|]. rewrite nth_overflow in H by (now rewrite (mo_cols _ _ M)). contradiction.
      + intros [H1 H2] H3. apply H2. now split.
    - reflexivity.
    - reflexivity.
    - intros k v Hk. pose proof (ELIM k v Hk) as E. apply (in_map fst) in Hk. cbn in Hk. rewrite MS in Hk. apply EL in Hk. destruct Hk as [Lk Ck].
      split; [assumption|]. split; [now apply Nat.ltb_lt|]. split; [intros i _; now apply empty_col_row|]. split; [exact E|]. now apply start_values. }
  split; [exact T|]. split; [exact (step_trans g rows _ _ _ S1 S2)|]. split; [|reflexivity].
  apply no_acts_implied. reflexivity.
Qed.
End Start.
