(** * Presolving: the bookkeeping is right in every run, also when the rules are used wrongly

    [tidy] of PreTidy.v without what depends on the rules being sound: nothing is said here about the sizes of
    ranges and about how tight bounds are. *)
From Verif Require Import SpecGeneral SparseP LinAlg KindP InitP.
From Verif Require Export PreStart PresolveD.
Local Open Scope Qc_scope.

Section Books.
Variables (g : general) (rows : list svec).
Local Notation n := (nr_vars g).
Local Notation m := (g_rows g).
Local Notation row i := (nth i rows []).
Local Notation col j := (nth j (g_cols g) []).
Local Notation in_row := (in_row rows).
Local Notation in_col := (in_col g).
Hypothesis M : matrix_ok g rows.

Record books (J : nat -> bool) (s : pindex) : Prop := mk_books {
  bk_nv : length (c_var (i_c s)) = n;
  bk_nc : length (c_con (i_c s)) = m;
  bk_bip : bip in_col in_row (cv s) (cc s);
  bk_rem_nd : NoDup (map fst (u_removed (i_u s)));
  bk_rem : forall j, In j (map fst (u_removed (i_u s))) <-> (j < n)%nat /\ cv s j = 0%nat /\ J j = false;
  bk_gone_nd : NoDup (u_gone (i_u s));
  bk_gone : forall i, In i (u_gone (i_u s)) <-> (i < m)%nat /\ cc s i = 0%nat;
  bk_bq : forall i, cc s i = 1%nat -> In i (q_bound (i_q s));
  bk_bq' : forall i, In i (q_bound (i_q s)) -> (cc s i <= 1)%nat;
  bk_sq : forall j, In j (q_slack (i_q s)) -> (cv s j <= 1)%nat /\ v_cost (gvar g j) = 0;
  bk_sub : forall j, In j (q_sub (i_q s)) -> crossed g (i_u s) j;
  bk_apart : apart (i_u s);
  bk_acts : acts_ok g rows s }.
Lemma tidy_books J s : tidy g rows J s -> books J s.
Proof. intros [H1 H2 H3 H4 H5 H6 H7 H8 H9 H10 H11 H12 H13 H14 H15]. constructor; assumption. Qed.

Lemma bk_column J s j : books J s -> cv s j <> 0%nat -> cv s j = length (active_column g (i_c s) j).
Proof. intros T N. rewrite <- (map_length fst), active_column_fst. now apply (bk_bip _ _ T). Qed.
Lemma bk_row J s i : books J s -> cc s i <> 0%nat -> cc s i = length (active_row rows (i_c s) i).
Proof. intros T N. rewrite <- (map_length fst), active_row_fst. now apply (bk_bip _ _ T). Qed.
Lemma bk_cv J s j : books J s -> cv s j <> 0%nat -> (j < n)%nat.
Proof. intros T N. rewrite <- (bk_nv _ _ T). now apply nth_nonzero_lt. Qed.
Lemma bk_cc J s i : books J s -> cc s i <> 0%nat -> (i < m)%nat.
Proof. intros T N. rewrite <- (bk_nc _ _ T). now apply nth_nonzero_lt. Qed.
Lemma is_removed_In u j : is_removed u j = true <-> In j (map fst (u_removed u)).
Proof.
  unfold is_removed. rewrite existsb_exists, in_map_iff. split.
  - intros ([k r] & H & E). apply Nat.eqb_eq in E. subst. now exists (j, r).
  - intros ([k r] & E & H). cbn in E. subst. exists (j, r). split; [assumption|apply Nat.eqb_refl].
Qed.
Lemma is_removed_false u j : is_removed u j = false <-> ~ In j (map fst (u_removed u)).
Proof. rewrite <- is_removed_In. now destruct (is_removed u j). Qed.
Lemma is_gone_false u i : is_gone u i = false <-> ~ In i (u_gone u).
Proof. unfold is_gone. apply memb_false. Qed.
Lemma bk_here J s j : books J s -> cv s j <> 0%nat -> is_removed (i_u s) j = false.
Proof. intros T N. apply is_removed_false. intros H. apply (bk_rem _ _ T) in H. now destruct H as (_ & H & _). Qed.
Lemma bk_present J s i : books J s -> cc s i <> 0%nat -> is_gone (i_u s) i = false.
Proof. intros T N. apply is_gone_false. intros H. apply (bk_gone _ _ T) in H. now destruct H. Qed.
Lemma books_ext J J' s : (forall j, J j = J' j) -> books J s -> books J' s.
Proof. intros E [H1 H2 H3 H4 H5]. constructor; try assumption. intros j. rewrite <- E. apply H5. Qed.

(** ** A row goes *)
Section RowGone.
Variables (s s' : pindex) (i : nat) (J : nat -> bool).
Hypotheses (T : books J s) (Ci : cc s i <> 0%nat)
  (CVs : forall k, cv s' k = (cv s k - if memb k (map fst (active_row rows (i_c s) i)) then 1 else 0)%nat)
  (CCi : cc s' i = 0%nat) (CCs : forall k, k <> i -> cc s' k = cc s k).
Lemma lost_bip : bip in_col in_row (cv s') (cc s').
Proof using M T Ci CVs CCi CCs.
  assert (SW : forall a b c d, bip a b c d -> bip b a d c) by (intros a b c d [H1 H2]; now split).
  apply SW. apply (bip_delete in_row in_col (fun j i => iff_sym (in_swap g rows M i j)) (in_col_nd g rows M) (cc s) (cv s) (cc s') (cv s') i); try assumption.
  - apply SW. apply (bk_bip _ _ T).
  - intros k. rewrite CVs. now rewrite active_row_fst.
Qed.
Lemma lost_other i' k c : i' <> i -> cc s i' <> 0%nat -> In (k, c) (row i') -> (cv s' k <> 0%nat <-> cv s k <> 0%nat).
Proof using M T Ci CVs CCi CCs.
  intros N C I. rewrite CVs. destruct (memb k (map fst (active_row rows (i_c s) i))) eqn:E; [|lia].
  apply memb_In in E. split; [lia|]. intros V.
  assert (2 <= cv s k)%nat; [|lia]. rewrite (bk_column _ _ _ T V), <- (map_length fst), active_column_fst.
  apply (two_length _ i' i); [apply alive_NoDup, (in_col_nd g rows M)|assumption| |]; apply alive_In; (split; [|assumption]).
  - apply (in_swap g rows M). unfold PreTidy.in_row. now apply (in_map fst) in I.
  - apply (in_swap g rows M). rewrite active_row_fst in E. now apply alive_In in E.
Qed.
Lemma lost_row i' : i' <> i -> cc s i' <> 0%nat -> active_row rows (i_c s') i' = active_row rows (i_c s) i'.
Proof using M T Ci CVs CCi CCs.
  intros N C. unfold active_row. apply filter_ext_in. intros [k c] I. rewrite !var_active_cv. f_equal.
  pose proof (lost_other i' k c N C I) as H. destruct (Nat.eqb_spec (cv s' k) 0), (Nat.eqb_spec (cv s k) 0); try reflexivity; tauto.
Qed.
Lemma lost_books (J' : nat -> bool) :
  i_act s' = i_act s -> c_act (i_c s') = c_act (i_c s) ->
  length (c_var (i_c s')) = length (c_var (i_c s)) -> length (c_con (i_c s')) = length (c_con (i_c s)) ->
  q_sub (i_q s') = q_sub (i_q s) -> q_bound (i_q s') = q_bound (i_q s) -> q_act (i_q s') = q_act (i_q s) ->
  (forall x, In x (q_slack (i_q s')) -> In x (q_slack (i_q s)) \/ (cv s' x <= 1)%nat /\ v_cost (gvar g x) = 0) ->
  u_bounds (i_u s') = u_bounds (i_u s) -> u_acts (i_u s') = u_acts (i_u s) ->
  u_gone (i_u s') = u_gone (i_u s) ++ [i] ->
  NoDup (map fst (u_removed (i_u s'))) ->
  (forall j, In j (map fst (u_removed (i_u s'))) <-> (j < n)%nat /\ cv s' j = 0%nat /\ J' j = false) ->
  books J' s'.
Proof using M T Ci CVs CCi CCs.
  intros A1 A2 A3 A4 Q1 Q2 Q3 Q4 Ub Ua GN RN RM.
  assert (PB : forall k d, pbound g (i_u s') k d = pbound g (i_u s) k d) by (intros; unfold pbound; now rewrite Ub).
  assert (BO : forall k d, bound_of g (i_u s') k d = bound_of g (i_u s) k d) by (intros; rewrite !bound_of_cases, Ua, PB; reflexivity).
  assert (CC : forall k, cc s' k <> 0%nat -> k <> i /\ cc s k <> 0%nat).
  { intros k H. destruct (Nat.eq_dec k i) as [->|D]; [congruence|]. rewrite CCs in H by assumption. now split. }
  constructor; try assumption.
  - rewrite A3. apply (bk_nv _ _ T).
  - rewrite A4. apply (bk_nc _ _ T).
  - exact lost_bip.
  - rewrite GN. apply NoDup_app_intro; [apply (bk_gone_nd _ _ T)|repeat constructor; auto|]. intros x H [<-|[]]. apply (bk_gone _ _ T) in H. destruct H; contradiction.
  - intros k. rewrite GN, in_app_iff, (bk_gone _ _ T). cbn. destruct (Nat.eq_dec k i) as [->|D].
    + rewrite CCi. pose proof (bk_cc _ _ _ T Ci). tauto.
    + rewrite CCs by assumption. intuition congruence.
  - intros k H. rewrite Q2. apply (bk_bq _ _ T). destruct (CC k ltac:(lia)) as [D _]. now rewrite CCs in H.
  - intros k H. rewrite Q2 in H. apply (bk_bq' _ _ T) in H. destruct (Nat.eq_dec k i) as [->|D]; [lia|]. now rewrite CCs.
  - intros k H. apply Q4 in H. destruct H as [H|H]; [|exact H]. apply (bk_sq _ _ T) in H. destruct H as [H1 H2]. split; [rewrite CVs; lia|assumption].
  - intros k H. rewrite Q1 in H. apply (bk_sub _ _ T) in H. destruct H as (l' & h' & H1 & H2 & H3). exists l', h'. now rewrite !BO.
  - unfold apart. rewrite Ub, Ua. apply (bk_apart _ _ T).
  - pose proof (bk_acts _ _ T) as [O1 O2 O3 O4 O5].
    assert (CA : forall k e, ca s' k e = ca s k e) by (intros k e; unfold ca; now rewrite A2).
    constructor.
    + now rewrite A2.
    + now rewrite A1.
    + intros k e H. destruct (CC k H) as [D H']. rewrite CA, O3 by assumption. unfold missing. rewrite lost_row by assumption.
      f_equal. apply filter_ext. intros [x c]. unfold lacks_bound. now rewrite BO.
    + intros k e H K. rewrite CA. apply O4; [now apply CC|]. unfold cache in *. now rewrite A1 in K.
    + intros k e I H. rewrite CA. apply O5; [now rewrite <- Q3|now apply CC].
Qed.
End RowGone.

(** ** A bound is entered *)
Lemma set_bound_books J s u' j d new : books J s -> rebound g (i_u s) u' j d new -> (cv s j <> 0%nat \/ active_column g (i_c s) j = []) ->
  pspec (apply_change g (with_u s u') j d (change_of d (bound_of g (i_u s) j d) new)) (fun s' => books J s' /\ i_u s' = u' /\ same_counts s s') (fun _ => False) False.
Proof.
  intros T RB J0. eapply pspec_impl; [apply (apply_change_spec g rows M s u' j d new (bk_acts _ _ T) (rb_moved _ _ _ _ _ _ RB) J0)| |auto|auto].
  cbn beta. intros s' ([R1 R2 R3 R4 R5] & AO & Sub). cbn [with_u i_u i_c i_q] in *. split; [|split; [assumption|split; assumption]].
  destruct (rb_same _ _ _ _ _ _ RB) as [B1 B2 B3 B4 B5].
  assert (CV : forall k, cv s' k = cv s k) by (intros k; unfold cv; now rewrite R2).
  assert (CC : forall k, cc s' k = cc s k) by (intros k; unfold cc; now rewrite R3).
  constructor.
  - rewrite R2. apply (bk_nv _ _ T).
  - rewrite R3. apply (bk_nc _ _ T).
  - pose proof (bk_bip _ _ T) as [H1 H2]. unfold bip, alive in *. split.
    + intros k. rewrite CV. intros H. rewrite H1 by assumption. f_equal. apply filter_ext. intros x. now rewrite CC.
    + intros k. rewrite CC. intros H. rewrite H2 by assumption. f_equal. apply filter_ext. intros x. now rewrite CV.
  - rewrite R1, B4. apply (bk_rem_nd _ _ T).
  - intros k. rewrite R1, B4, CV. apply (bk_rem _ _ T).
  - rewrite R1, B5. apply (bk_gone_nd _ _ T).
  - intros k. rewrite R1, B5, CC. apply (bk_gone _ _ T).
  - intros k. rewrite CC, R4. apply (bk_bq _ _ T).
  - intros k. rewrite CC, R4. apply (bk_bq' _ _ T).
  - intros k. rewrite CV, R5. apply (bk_sq _ _ T).
  - intros k H. rewrite R1. apply Sub in H. destruct H as [H|[-> H]]; [|now apply fixed_crossed]. apply (rebound_crossed _ _ _ _ _ _ _ RB). now apply (bk_sub _ _ T).
  - rewrite R1. apply (rb_apart _ _ _ _ _ _ RB).
  - exact AO.
Qed.

(** ** The pending variable gets its value *)
Lemma books_solved J J' s s' j v : books J s -> J j = true -> cv s j = 0%nat -> (j < n)%nat -> (forall k, J' k = J k && negb (Nat.eqb k j)) ->
  i_u s' = add_solved g (i_u s) [(j, v)] -> i_c s' = i_c s -> i_q s' = i_q s -> i_act s' = i_act s -> books J' s'.
Proof.
  intros [H1 H2 H3 H4 H5 H6 H7 H8 H9 H10 H11 H12 H15] Jj Cj Lj HJ Eu Ec Eq Ea. destruct s' as [q' u' c' a']. cbn in *. subst.
  constructor; try assumption.
  - cbn. rewrite map_app. apply NoDup_app_intro; [assumption|repeat constructor; auto|]. intros k Hk [<-|[]]. apply H5 in Hk. destruct Hk as (_ & _ & Hk). cbn in Hk. congruence.
  - intros k. cbn. rewrite map_app, in_app_iff, H5, HJ. cbn. change (cv _ k) with (cv s k). destruct (Nat.eqb_spec k j) as [->|D].
    + rewrite andb_false_r. split; [intros _; now split|intros _; right; now left].
    + rewrite andb_true_r. split; [intros [H|[E|[]]]; [assumption|congruence]|now left].
  - destruct H15 as [X1 X2 X3 X4 X5]. constructor; assumption.
Qed.
Lemma books_push_slack J s j : books J s -> (cv s j <= 1)%nat -> v_cost (gvar g j) = 0 -> books J (push_slack s j).
Proof.
  intros [H1 H2 H3 H4 H5 H6 H7 H8 H9 H10 H11 H12 H15] C Z. constructor; try assumption.
  - intros k [<-|Hk]; [now split|now apply H10].
  - destruct H15 as [X1 X2 X3 X4 X5]. constructor; assumption.
Qed.
Lemma books_queues s q : books nobody s -> (forall i, cc s i = 1%nat -> In i (q_bound q)) -> incl (q_sub q) (q_sub (i_q s)) -> incl (q_bound q) (q_bound (i_q s)) ->
  incl (q_slack q) (q_slack (i_q s)) -> incl (q_act q) (q_act (i_q s)) -> books nobody (with_q s q).
Proof.
  intros [H1 H2 H3 H4 H5 H6 H7 H8 H9 H10 H11 H12 H15] B I1 I2 I3 I4. constructor; try assumption; cbn [with_q i_q i_c i_u].
  - intros i Hi. apply H9. now apply I2.
  - intros i Hi. apply H10. now apply I3.
  - intros i Hi. apply H11. now apply I1.
  - destruct H15 as [X1 X2 X3 X4 X5]. constructor; try assumption. intros i d Hi. apply X5. now apply I4.
Qed.
Lemma books_types s u' : books nobody s -> u_bounds u' = u_bounds (i_u s) -> u_acts u' = u_acts (i_u s) -> u_removed u' = u_removed (i_u s) -> u_gone u' = u_gone (i_u s) ->
  books nobody (with_u s u').
Proof.
  intros [H1 H2 H3 H4 H5 H6 H7 H8 H9 H10 H11 H12 H15] Ub Ua Ur Ug.
  assert (BO : forall k d, bound_of g u' k d = bound_of g (i_u s) k d) by (intros; rewrite !bound_of_cases, Ua; unfold pbound; now rewrite Ub).
  constructor; try assumption; cbn [with_u i_q i_c i_u]; rewrite ?Ur, ?Ug; try assumption.
  - intros j H. apply H11 in H. destruct H as (l & h & X1 & X2 & X3). exists l, h. now rewrite !BO.
  - unfold apart. rewrite Ub, Ua. assumption.
  - destruct H15 as [X1 X2 X3 X4 X5]. constructor; try assumption. intros i d Hi. change (ca (with_u s u') i d) with (ca s i d). rewrite (X3 i d Hi). unfold missing. cbn [with_u i_u i_c]. f_equal. apply filter_ext. intros [k c]. unfold lacks_bound. now rewrite BO.
Qed.
Lemma bk_known s i d : books nobody s -> cc s i <> 0%nat -> ca s i d = 0%nat -> forall j c, In (j, c) (active_row rows (i_c s) i) -> bound_of g (i_u s) j (bmul d c) <> None.
Proof.
  intros T Ci C0 j c Hj E. rewrite (ao_missing _ _ _ (bk_acts _ _ T)) in C0 by assumption. unfold missing in C0. apply length_zero_iff_nil in C0.
  assert (X : In (j, c) (filter (lacks_bound g (i_u s) d) (active_row rows (i_c s) i))) by (apply filter_In; split; [assumption|]; unfold lacks_bound; cbn; now rewrite E).
  rewrite C0 in X. contradiction.
Qed.
End Books.
