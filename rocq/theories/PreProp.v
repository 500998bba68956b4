(** * Presolving: domain propagation *)
From Verif Require Import SpecGeneral SparseP LinAlg KindP InitP.
From Verif Require Export PreSlack.
Local Open Scope Qc_scope.

Section Prop_.
Variables (g : general) (rows : list svec).
Local Notation n := (nr_vars g).
Local Notation m := (g_rows g).
Local Notation row i := (nth i rows []).
Local Notation col j := (nth j (g_cols g) []).
Context {Cl : (nat -> bool) -> Prop} {Kn : nat -> bool}.
Local Notation step := (cstep g rows Cl).
Local Notation feas := (feas g rows).
Local Notation vcost := (vcost g).
Local Notation implied := (implied g rows).
Local Notation tidy := (tidy g rows).
Local Notation in_row := (in_row rows).
Local Notation in_col := (in_col g).
Local Notation verdict_holds := (verdict_holds g rows).
Hypothesis M : matrix_ok g rows.
Hypothesis CK : Cl Kn.

(** ** The set of feasible points stays the same *)
Record kept (s s' : pindex) : Prop := mk_kept {
  kp_tidy : tidy nobody s';
  kp_implied : implied (view_of s');
  kp_feas : forall x, feas (view_of s) x <-> feas (view_of s') x;
  kp_counts : same_counts s s';
  kp_fixed : u_fixed (i_u s') = u_fixed (i_u s);
  kp_removed : u_removed (i_u s') = u_removed (i_u s);
  kp_cut : forall D, Cl D -> forall x, feas (cut D (view_of s')) x -> feas (cut D (view_of s)) x;
  kp_found : @found g rows Kn s s' }.
Lemma kept_refl s : tidy nobody s -> implied (view_of s) -> kept s s.
Proof. intros T I. constructor; try assumption; try reflexivity; [now split|now intros|now apply found_same]. Qed.
Lemma kept_trans a b c : kept a b -> kept b c -> kept a c.
Proof.
  intros [A1 A2 A3 [A4 A5] A6 A7 A8 A9] [B1 B2 B3 [B4 B5] B6 B7 B8 B9]. constructor; try assumption; try congruence.
  - intros x. now rewrite A3, B3.
  - split; congruence.
  - intros D CD x F. apply (A8 D CD). now apply (B8 D CD).
  - intros j e v O X. destruct (B9 j e v O X) as [X'|X']; [|now right].
    assert (O' : on_var (view_of b) j = true) by (cbn in *; unfold var_active in *; now rewrite <- B4).
    destruct (A9 j e v O' X') as [Y|Y]; [now left|]. right. intros x F. apply Y. now apply (B8 Kn CK).
Qed.
Lemma kept_on_var s s' j : kept s s' -> on_var (view_of s') j = on_var (view_of s) j.
Proof. intros [_ _ _ [H _] _ _ _ _]. cbn. unfold var_active. now rewrite H. Qed.
Lemma kept_cv s s' j : kept s s' -> cv s' j = cv s j.
Proof. intros [_ _ _ [H _] _ _ _ _]. unfold cv. now rewrite H. Qed.
Lemma kept_cc s s' j : kept s s' -> cc s' j = cc s j.
Proof. intros [_ _ _ [_ H] _ _ _ _]. unfold cc. now rewrite H. Qed.
Lemma kept_row s s' i : kept s s' -> active_row rows (i_c s') i = active_row rows (i_c s) i.
Proof. intros [_ _ _ [H _] _ _ _ _]. unfold active_row, var_active. now rewrite H. Qed.
Lemma kept_step s s' : kept s s' -> step (view_of s) (view_of s').
Proof. intros K. apply cstep_same; [intros j; now apply kept_on_var|apply (kp_feas _ _ K)|apply (kp_fixed _ _ K)|apply (kp_removed _ _ K)|apply (kp_cut _ _ K)]. Qed.
Lemma kept_good s s' : kept s s' -> @good g rows Cl Kn s s'.
Proof. intros K. split; [apply (kp_tidy _ _ K)|]. split; [now apply kept_step|]. split; [apply (kp_implied _ _ K)|apply (kp_found _ _ K)]. Qed.

(** ** Entering a bound that holds anyway *)
Lemma rebound_feas s u' j d new : tidy nobody s -> implied (view_of s) -> rebound g (i_u s) u' j d new ->
  (forall x, feas (view_of s) x -> bound_holds d new (x j)) -> on_var (view_of s) j = true ->
  let w' := mk_view (on_var (view_of s)) (on_row (view_of s)) u' in
  (forall x, feas (view_of s) x <-> feas w' x) /\ implied w' /\ (forall D x, feas (cut D w') x -> feas (cut D (view_of s)) x).
Proof.
  intros T I RB H OJ w'. destruct (rb_same _ _ _ _ _ _ RB) as [B1 B2 B3 B4 B5].
  assert (TY : forall i, type_of g u' i = type_of g (i_u s) i) by (intros; unfold type_of; now rewrite B2).
  assert (BB : forall i, b_of g u' i = b_of g (i_u s) i) by (intros; unfold b_of; now rewrite B1).
  assert (BK : forall D x, feas (cut D w') x -> feas (cut D (view_of s)) x).
  { intros D x [F1 F2]. split.
      + intros k Hk e v P. cbn [cut view_of upds] in P. destruct (rb_p _ _ _ _ _ _ RB k e) as [Q|[Q1 Q2]].
        * apply (F1 k Hk e). cbn [cut w' upds]. now rewrite Q.
        * destruct (is_at_spec k e j d) as [[-> ->]|N]; [|discriminate]. pose proof (F1 j Hk d _ Q2) as X. apply tighten_holds in X. destruct X as [X _].
          destruct (bound_of g (i_u s) j d) as [b|] eqn:Bd; [|exfalso; rewrite bound_of_cases, P in Bd; destruct (u_acts (i_u s) j d); discriminate].
          eapply bound_holds_trans; [apply (td_tight _ _ _ _ T j d b v Bd P)|now apply X].
      + intros i Hi. specialize (F2 i Hi). cbn [cut w' upds] in F2. rewrite TY, BB in F2. exact F2. }
  assert (E : forall x, feas (view_of s) x <-> feas w' x).
  { intros x. split.
    - intros F. pose proof F as [F1 F2]. split.
      + intros k Hk e v P. cbn [w' upds] in P. destruct (rb_p _ _ _ _ _ _ RB k e) as [Q|[Q1 Q2]].
        * rewrite Q in P. now apply (F1 k Hk e).
        * destruct (is_at_spec k e j d) as [[-> ->]|N]; [|discriminate]. rewrite Q2 in P. injection P as <-. apply tighten_holds. split; [|now apply H].
          now apply (I x F j Hk).
      + intros i Hi. cbn [w' upds]. rewrite TY, BB. now apply (F2 i).
    - intros F. pose proof (BK (fun _ => true) x (feas_cut g rows w' _ x F)) as [F1 F2]. split; [exact F1|]. intros i Hi. apply (F2 i). apply cut_row. now split. }
  split; [exact E|]. split; [|exact BK]. intros x F k Hk e v P. cbn [w' upds] in P. apply E in F. rewrite (rb_moved _ _ _ _ _ _ RB) in P. destruct (is_at_spec k e j d) as [[-> ->]|N].
  - injection P as <-. apply tighten_holds. split; [now apply (I x F j Hk)|now apply H].
  - now apply (I x F k Hk e).
Qed.
Lemma enter_implied s u' j d new : tidy nobody s -> implied (view_of s) -> rebound g (i_u s) u' j d new -> cv s j <> 0%nat ->
  (forall x, feas (cut Kn (view_of s)) x -> bound_holds d new (x j)) ->
  pspec (apply_change g (with_u s u') j d (change_of d (bound_of g (i_u s) j d) new)) (fun s' => kept s s' /\ i_u s' = u') (fun _ => False) False.
Proof.
  intros T I RB Cj HK. assert (H : forall x, feas (view_of s) x -> bound_holds d new (x j)) by (intros x F; apply HK; now apply feas_cut).
  eapply pspec_impl; [apply (set_bound_tidy g rows M nobody s u' j d new T RB (or_introl Cj))| |auto|auto].
  cbn beta. intros s' (T' & U & [C1 C2]). split; [|assumption].
  destruct (rebound_feas s u' j d new T I RB H (proj2 (on_var_cv s j) Cj)) as (E & I' & BK). destruct (rb_same _ _ _ _ _ _ RB) as [B1 B2 B3 B4 B5].
  assert (V : view_of s' = mk_view (on_var (view_of s)) (on_row (view_of s)) u').
  { unfold view_of, on_var, on_row, var_active, con_active. now rewrite C1, C2, U. }
  constructor; try assumption; try congruence.
  - now rewrite V.
  - intros x. rewrite V. apply E.
  - now split.
  - intros D _ x. rewrite V. apply BK.
  - intros k e v _ X. rewrite U in X. apply (rb_acts _ _ _ _ _ _ RB) in X. destruct X as [X|[X1 X2]]; [now left|]. right. intros x F. destruct (is_at_spec k e j d) as [[EK EE]|N]; [|discriminate].
    rewrite EK, EE, X2. apply HK. apply BK. now rewrite V in F.
Qed.

(** ** Bounds on the variables of a row *)
Definition vpart_step (rhs activity : Qc) (d : bdir) : pindex * change -> nat * Qc -> pr (pindex * change) :=
  fun '(s, made) '(j, c) =>
      let+ x := unwrap (bound_of g (i_u s) j (bmul d c)) in
      let residual := activity - c * x in
      let (u, change) := update_activity_bound g (i_u s) j (bmul (bnot d) c) ((rhs - residual) / c) in
      let+ s := apply_change g (with_u s u) j (bmul (bnot d) c) change in
      Go (s, upgrade made change).
Lemma variable_part_fold s0 d rhs a : forall l s made, kept s0 s -> NoDup (map fst l) ->
  (forall j c, In (j, c) l -> cv s0 j <> 0%nat /\ exists v, bound_of g (i_u s) j (bmul d c) = Some v /\
     forall x, feas (cut Kn (view_of s0)) x -> bound_holds (bmul (bnot d) c) ((rhs - (a - c * v)) / c) (x j)) ->
  pspec (foldP (vpart_step rhs a d) l (s, made)) (fun r => kept s0 (fst r)) (fun _ => False) False.
Proof.
  induction l as [|[j c] l IH]; intros s made K ND H; cbn [foldP].
  - exact K.
  - cbn [map fst] in ND. apply NoDup_cons_iff in ND. destruct ND as [NI ND].
    destruct (H j c (or_introl eq_refl)) as (Cj & v & Bv & Hv). cbn [vpart_step]. rewrite Bv. cbn [unwrap pbind].
    destruct (update_activity_bound g (i_u s) j (bmul (bnot d) c) ((rhs - (a - c * v)) / c)) as [u' ch] eqn:UB.
    destruct (update_activity_rebound g _ _ _ _ _ _ (td_apart _ _ _ _ (kp_tidy _ _ K)) UB) as [RB ->].
    eapply pspec_bind with (Q := fun r => kept s0 (fst r) /\ i_u (fst r) = u').
    + eapply pspec_bind; [eapply pspec_impl; [apply (enter_implied s u' _ _ _ (kp_tidy _ _ K) (kp_implied _ _ K) RB)|intros x X; exact X|intros ? []|auto]|].
      * now rewrite (kept_cv _ _ _ K).
      * intros x F. apply Hv. now apply (kp_cut _ _ K Kn CK).
      * cbn beta. intros s' [K' U]. cbn [pspec fst]. split; [now apply (kept_trans s0 s)|assumption].
    + intros [s' made'] [K' U]. cbn [fst] in *. apply IH; try assumption. intros k e Hk. destruct (H k e (or_intror Hk)) as (Ck & v' & Bv' & Hv'). split; [assumption|].
      exists v'. split; [|assumption]. rewrite U, (rb_moved _ _ _ _ _ _ RB). destruct (is_at_spec k (bmul d e) j (bmul (bnot d) c)) as [[EK _]|N]; [|assumption].
      exfalso. apply NI. rewrite <- EK. now apply (in_map fst) in Hk.
Qed.
(** all bounds of one kind are there *)
Lemma activity_sum_known u d : forall l acc, (forall j c, In (j, c) l -> bound_of g u j (bmul d c) <> None) ->
  exists a, foldP (fun acc '(j, c) => let+ x := unwrap (bound_of g u j (bmul d c)) in Go (acc + c * x)) l acc = Go a.
Proof.
  induction l as [|[j c] l IH]; intros acc H; cbn [foldP]; [now exists acc|].
  destruct (bound_of g u j (bmul d c)) as [v|] eqn:B; [|exfalso; now apply (H j c (or_introl eq_refl))]. cbn [unwrap pbind].
  apply IH. intros k e Hk. apply H. now right.
Qed.
Lemma none_missing s i d : tidy nobody s -> cc s i <> 0%nat -> ca s i d = 0%nat -> forall j c, In (j, c) (active_row rows (i_c s) i) -> bound_of g (i_u s) j (bmul d c) <> None.
Proof.
  intros T Ci C0 j c Hj E. rewrite (ao_missing _ _ _ (td_acts _ _ _ _ T)) in C0 by assumption. unfold missing in C0. apply length_zero_iff_nil in C0.
  assert (X : In (j, c) (filter (lacks_bound g (i_u s) d) (active_row rows (i_c s) i))) by (apply filter_In; split; [assumption|]; unfold lacks_bound; cbn; now rewrite E).
  rewrite C0 in X. contradiction.
Qed.
Lemma row_within s i x : implied (view_of s) -> feas (view_of s) x -> all_within g (i_u s) (active_row rows (i_c s) i) x.
Proof.
  intros I F j c H. apply active_row_In in H. destruct H as [H1 H2]. split; [apply (mo_in _ _ M) in H1; now apply (mo_nz _ _ M) in H1|]. apply (I x F j). now apply on_var_cv.
Qed.
Lemma row_holds s i x : cc s i <> 0%nat -> feas (view_of s) x -> rel_holds (type_of g (i_u s) i) (b_of g (i_u s) i) (combination (active_row rows (i_c s) i) x).
Proof. intros C F. apply (proj2 F i). now apply on_row_cc. Qed.

(** the bounds of the variables of a row that limit it in one direction, and the row, follow from [Kn] *)
Definition knows (s : pindex) (i : nat) (d : bdir) : Prop := Kn i = true /\
  forall x, feas (cut Kn (view_of s)) x -> half_within g (i_u s) d (active_row rows (i_c s) i) x.
Lemma row_cut s i d x : knows s i d -> cc s i <> 0%nat -> feas (cut Kn (view_of s)) x ->
  rel_holds (type_of g (i_u s) i) (b_of g (i_u s) i) (combination (active_row rows (i_c s) i) x).
Proof. intros [H _] C F. apply (proj2 F i). apply cut_row. split; [now apply on_row_cc|assumption]. Qed.
(** ** One missing bound *)
Lemma bound_one_spec s i d : tidy nobody s -> implied (view_of s) -> cc s i <> 0%nat -> ca s i d = 1%nat -> knows s i d ->
  pspec (bound_one g rows s i d) (fun r => @good g rows Cl Kn s (fst r)) (fun _ => False) False.
Proof.
  intros T I Ci C1 KN. unfold bound_one. destruct (usable_side g (i_u s) i d) as [rhs|] eqn:US.
  2:{ cbn [pspec fst]. apply kept_good. now apply kept_refl. }
  assert (MS : length (filter (lacks_bound g (i_u s) d) (active_row rows (i_c s) i)) = 1%nat) by (rewrite <- C1; symmetry; now apply (ao_missing _ _ _ (td_acts _ _ _ _ T))).
  destruct (missing_entry g (i_u s) d (active_row rows (i_c s) i)) as [[j c]|] eqn:ME.
  2:{ exfalso. destruct (filter (lacks_bound g (i_u s) d) (active_row rows (i_c s) i)) as [|e l] eqn:E; [discriminate|].
      assert (X : In e (filter (lacks_bound g (i_u s) d) (active_row rows (i_c s) i))) by (rewrite E; now left). apply filter_In in X. destruct X as [X1 X2].
      unfold missing_entry in ME. apply (find_none _ _ ME) in X1. destruct e as [k a]. unfold lacks_bound in X2. cbn in X2. congruence. }
  cbn [unwrap pbind].
  destruct (update_activity_bound g (i_u s) j (bmul (bnot d) c) ((rhs - known_activity g (i_u s) d (active_row rows (i_c s) i)) / c)) as [u' ch] eqn:UB.
  destruct (update_activity_rebound g _ _ _ _ _ _ (td_apart _ _ _ _ T) UB) as [RB ->].
  pose proof (find_some _ _ ME) as [Hj _]. apply active_row_In in Hj. destruct Hj as [_ Cj].
  eapply pspec_bind; [eapply pspec_impl; [apply (enter_implied s u' _ _ _ T I RB Cj)|intros x X; exact X|intros ? []|auto]|].
  - intros x F. apply (missing_bound_ok g (i_u s) d (active_row rows (i_c s) i) x rhs j c); try assumption.
    + now apply KN.
    + apply (usable_side_ok g (i_u s) i d rhs _ US); [intros r; now apply (td_range _ _ _ _ T)|now apply (row_cut s i d)].
  - cbn beta. intros s' [K _]. cbn [pspec fst]. now apply kept_good.
Qed.

(** ** The activity of a row *)
Definition exact_cache (s : pindex) (i : nat) (d : bdir) : Prop :=
  forall x, cache s i d = Some x -> activity_sum g (i_u s) d (active_row rows (i_c s) i) = Go x.
Lemma activity_bound_spec s i d : tidy nobody s -> cc s i <> 0%nat -> ca s i d = 0%nat -> exact_cache s i d ->
  exists s1 a, activity_bound g rows s i d = Go (s1, a) /\ activity_sum g (i_u s) d (active_row rows (i_c s) i) = Go a /\
    tidy nobody s1 /\ i_u s1 = i_u s /\ i_c s1 = i_c s /\ i_q s1 = i_q s.
Proof.
  intros T Ci C0 EX. unfold activity_bound. fold (cache s i d). destruct (cache s i d) as [x|] eqn:K.
  - exists s, x. split; [reflexivity|]. split; [now apply EX|]. now repeat split; try apply T.
  - destruct (activity_sum_known (i_u s) d (active_row rows (i_c s) i) 0 (none_missing s i d T Ci C0)) as [a E].
    assert (E' : activity_sum g (i_u s) d (active_row rows (i_c s) i) = Go a) by exact E. rewrite E'. cbn [pbind].
    set (s1 := with_act s _). exists s1, a. split; [reflexivity|]. split; [reflexivity|]. split; [|now repeat split].
    destruct T as [H1 H2 H3 H4 H5 H6 H7 H8 H9 H10 H11 H12 H13 H14 [X1 X2 X3 X4 X5]]. constructor; try assumption. constructor; try assumption.
    + unfold s1. cbn [with_act i_act]. now rewrite upd_length.
    + intros k e Ck. unfold cache, s1. cbn [with_act i_act]. destruct (Nat.lt_ge_cases i (length (i_act s))) as [L|L].
      * rewrite nth_pair_upd by assumption. rewrite side_set. destruct (Nat.eqb_spec k i) as [->|]; [|now apply X4].
        destruct (bdir_eqb_spec e d) as [->|]; [intros _; exact C0|now apply X4].
      * exfalso. rewrite X2 in L. assert (i < m)%nat; [|lia]. rewrite <- H2. now apply nth_nonzero_lt.
Qed.
End Prop_.
