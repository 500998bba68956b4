(** * Presolving: where a debug build and a release build do the same *)
From Verif Require Import SpecGeneral SparseP LinAlg KindP InitP.
From Verif Require Export PreBooks.
Local Open Scope Qc_scope.

(** the same in both builds, and what then holds; [N] when it is a panic *)
Definition agree {A} (xd x : pr A) (Q : A -> Prop) (N : Prop) : Prop := xd = x /\ pspec x Q (fun _ => True) N.
Lemma agree_go {A} (a : A) (Q : A -> Prop) N : Q a -> agree (Go a) (Go a) Q N.
Proof. intros H. now split. Qed.
Lemma agree_stop {A} v (Q : A -> Prop) N : agree (Stop v) (Stop v) Q N.
Proof. now split. Qed.
Lemma agree_bind {A B} (xd x : pr A) (fd f : A -> pr B) Q Q' N : agree xd x Q N -> (forall a, Q a -> agree (fd a) (f a) Q' N) -> agree (pbind xd fd) (pbind x f) Q' N.
Proof.
  intros [-> H] K. destruct x as [a|v| |]; cbn [pspec pbind] in *.
  - now apply K.
  - now split.
  - now split.
  - contradiction.
Qed.
Lemma agree_impl {A} (xd x : pr A) (Q Q' : A -> Prop) (N N' : Prop) : agree xd x Q N -> (forall a, Q a -> Q' a) -> (N -> N') -> agree xd x Q' N'.
Proof. intros [E H] K L. split; [assumption|]. eapply pspec_impl; [exact H|assumption|auto|assumption]. Qed.
Lemma agree_spec {A} (xd x : pr A) (Q : A -> Prop) V N : xd = x -> pspec x Q V N -> agree xd x Q N.
Proof. intros E H. split; [assumption|]. eapply pspec_impl; [exact H|auto|auto|auto]. Qed.

Section Agree.
Variable on : site -> bool.
Variables (g : general) (rows : list svec).
Local Notation n := (nr_vars g).
Local Notation m := (g_rows g).
Local Notation row i := (nth i rows []).
Local Notation col j := (nth j (g_cols g) []).
Hypothesis M : matrix_ok g rows.
Local Notation books := (books g rows).

(** the lower bound is at most the upper bound *)
Definition opened (u : updates) : Prop := forall j l h, bound_of g u j Lower = Some l -> bound_of g u j Upper = Some h -> l <= h.
(** ranges have a size *)
Definition ranged (s : pindex) : Prop := forall i r, cc s i <> 0%nat -> type_of g (i_u s) i = Range r -> 0 <= r.
Lemma opened_value u j : opened u -> feasible_value g u j <> None.
Proof.
  intros H. unfold feasible_value. pose proof (H j) as X. destruct (bound_of g u j Lower) as [l|], (bound_of g u j Upper) as [h|]; try discriminate.
  specialize (X l h eq_refl eq_refl). destruct (qleb l h) eqn:E; [discriminate|]. qb. exfalso. qlra.
Qed.
Lemma opened_fixed u j : opened u -> crossed g u j -> fixed_value g u j <> None.
Proof.
  intros H (l & h & L & U & C). unfold fixed_value. rewrite L, U. specialize (H j l h L U).
  assert (l = h) by (apply Qcle_antisym; assumption). subst. rewrite (proj2 (qeqb_true h h) eq_refl). discriminate.
Qed.
Lemma opened_bounds u u' : (forall j d, bound_of g u' j d = bound_of g u j d) -> opened u -> opened u'.
Proof. intros E H j l h. rewrite !E. apply H. Qed.
Lemma bound_of_eq u u' j d : u_bounds u' = u_bounds u -> u_acts u' = u_acts u -> bound_of g u' j d = bound_of g u j d.
Proof. intros E1 E2. unfold bound_of. now rewrite E1, E2. Qed.

(** ** Assertions that hold *)
Lemma assert_ok {A} k b (x : pr A) : b = true -> assert_that on k b x = x.
Proof. intros ->. unfold assert_that. now rewrite andb_false_r. Qed.
Lemma assert_run_ok {A} k b (x : pr A) : b = Go true -> assert_run on k b x = x.
Proof. intros ->. unfold assert_run. now destruct (on k). Qed.
Lemma assert_off {A} k b (x : pr A) : on k = false -> assert_run on k b x = x.
Proof. intros E. unfold assert_run. now rewrite E. Qed.
Lemma b_of_here u i : is_gone u i = false -> b_of_d on g u i = Go (b_of g u i).
Proof. intros E. unfold b_of_d. apply assert_ok. now rewrite E. Qed.
Lemma change_b_here u i x : is_gone u i = false -> change_b_d on g u i x = Go (change_b g u i x).
Proof. intros E. unfold change_b_d. apply assert_ok. now rewrite E. Qed.
Lemma type_of_here u i : is_gone u i = false -> type_of_d on g u i = Go (type_of g u i).
Proof. intros E. unfold type_of_d. apply assert_ok. now rewrite E. Qed.
Lemma bound_of_here u j d : is_removed u j = false -> apart u -> bound_of_d on g u j d = Go (bound_of g u j d).
Proof.
  intros E A. unfold bound_of_d. rewrite assert_ok by (now rewrite E). apply assert_ok. unfold apart_at. specialize (A j d).
  destruct (u_bounds u j d), (u_acts u j d); try reflexivity. assert (Some q0 = None) by (apply A; discriminate). discriminate.
Qed.
Lemma fixed_value_here u j : is_removed u j = false -> apart u -> fixed_value_d on g u j = Go (fixed_value g u j).
Proof. intros E A. unfold fixed_value_d. rewrite assert_ok by (now rewrite E). rewrite !bound_of_here by assumption. reflexivity. Qed.
Lemma feasible_value_here u j : is_removed u j = false -> apart u -> feasible_value_d on g u j = Go (feasible_value g u j).
Proof. intros E A. unfold feasible_value_d. rewrite assert_ok by (now rewrite E). rewrite !bound_of_here by assumption. reflexivity. Qed.
Lemma update_bound_here u j d x : is_removed u j = false -> update_bound_d on g u j d x = Go (update_bound g u j d x).
Proof. intros E. unfold update_bound_d. apply assert_ok. now rewrite E. Qed.
Lemma update_activity_bound_here u j d x : is_removed u j = false -> update_activity_bound_d on g u j d x = Go (update_activity_bound g u j d x).
Proof. intros E. unfold update_activity_bound_d. apply assert_ok. now rewrite E. Qed.
Lemma active_column_here c j : (j < n)%nat -> active_column_d on g c j = Go (active_column g c j).
Proof using M. intros H. unfold active_column_d. apply assert_ok. apply Nat.ltb_lt. now rewrite (mo_cols _ _ M). Qed.
Lemma active_row_here s i : (i < m)%nat -> cc s i <> 0%nat -> active_row_d on rows (i_c s) i = Go (active_row rows (i_c s) i).
Proof using M.
  intros H C. unfold active_row_d. rewrite assert_ok by (unfold con_active; fold (cc s i); apply negb_true_iff; now apply Nat.eqb_neq).
  apply assert_ok. apply Nat.ltb_lt. now rewrite (mo_rows _ _ M).
Qed.
Lemma mark_constraint_here s i : cc s i = 0%nat -> mark_constraint_d on s i = Go (mark_constraint s i).
Proof. intros E. unfold mark_constraint_d. apply assert_ok. fold (cc s i). now rewrite E. Qed.
Lemma mark_variable_here s j v : cv s j = 0%nat -> mark_variable_d on s j v = Go (mark_variable s j v).
Proof. intros E. unfold mark_variable_d. apply assert_ok. fold (cv s j). now rewrite E. Qed.
Lemma queue_constraint_here s i : (cc s i = 0%nat -> is_gone (i_u s) i = false) -> queue_constraint_d on g s i = queue_constraint g s i.
Proof.
  intros H. unfold queue_constraint_d, queue_constraint. fold (cc s i). destruct (cc s i) as [|[|k]] eqn:E; try reflexivity.
  rewrite b_of_here, type_of_here by now apply H. cbn [pbind]. destruct (empty_feasible _ _); [|reflexivity]. now apply mark_constraint_here.
Qed.
Lemma queue_variable_here s j : (cv s j = 0%nat -> is_removed (i_u s) j = false /\ apart (i_u s) /\ feasible_value g (i_u s) j <> None) ->
  queue_variable_d on g s j = queue_variable g s j.
Proof.
  intros H. unfold queue_variable_d, queue_variable. fold (cv s j). destruct (cv s j) as [|[|k]] eqn:E; try reflexivity.
  destruct (H eq_refl) as (R & A & F). rewrite feasible_value_here, !bound_of_here by assumption. cbn [pbind].
  rewrite assert_run_ok by (destruct (feasible_value g (i_u s) j); [reflexivity|congruence]).
  destruct (qzero (v_cost (gvar g j))) eqn:Z.
  - destruct (unwrap (feasible_value g (i_u s) j)); try reflexivity. cbn [pbind]. now apply mark_variable_here.
  - rewrite assert_ok by reflexivity. destruct (optimize_column _ _ _ _); try reflexivity. cbn [pbind]. now apply mark_variable_here.
Qed.

(** ** Loops over the entries of a row or a column *)
Lemma queue_constraint_gone s i : queue_constraint g s i = Stop VInfeasible \/
  exists s', queue_constraint g s i = Go s' /\ i_c s' = i_c s /\ (forall k, k <> i -> is_gone (i_u s') k = is_gone (i_u s) k).
Proof.
  unfold queue_constraint. destruct (nth i (c_con (i_c s)) 0%nat) as [|[|k]].
  - destruct (empty_feasible _ _); [right|now left]. eexists. split; [reflexivity|]. split; [reflexivity|]. intros k Hk.
    unfold is_gone. cbn [mark_constraint with_u i_u u_gone]. apply eq_true_iff_eq. rewrite !memb_In, in_app_iff. cbn. intuition congruence.
  - right. eexists. split; [reflexivity|]. split; [reflexivity|]. reflexivity.
  - right. eexists. split; [reflexivity|]. split; reflexivity.
Qed.
Definition take_rows_d (j : nat) (s : pindex) (e : nat * Qc) : pr pindex :=
  let (i, _) := e in let+ s := dec_var s j in let+ s := dec_con s i in queue_constraint_d on g s i.
Lemma take_rows_here j : forall l s, NoDup (map fst l) -> (forall i, In i (map fst l) -> is_gone (i_u s) i = false) ->
  foldP (take_rows_d j) l s = foldP (take_rows g j) l s.
Proof.
  induction l as [|[i c] l IH]; intros s ND H; cbn [foldP]; [reflexivity|]. cbn [map fst] in ND, H. apply NoDup_cons_iff in ND. destruct ND as [NI ND].
  assert (U : forall s', i_u s' = i_u s -> queue_constraint_d on g s' i = queue_constraint g s' i) by (intros s' E; apply queue_constraint_here; intros _; rewrite E; apply H; now left).
  assert (E : take_rows_d j s (i, c) = take_rows g j s (i, c)).
  { cbn [take_rows take_rows_d]. unfold dec_var, dec_con. destruct (dec (c_var (i_c s)) j); try reflexivity. cbn [pbind]. destruct (dec _ i); try reflexivity. cbn [pbind]. now apply U. }
  rewrite E. cbn [take_rows]. unfold dec_var, dec_con. destruct (dec (c_var (i_c s)) j); try reflexivity. cbn [pbind]. destruct (dec _ i); try reflexivity. cbn [pbind].
  match goal with |- context [queue_constraint g ?s1 i] => destruct (queue_constraint_gone s1 i) as [->|(s' & -> & _ & G)]; [reflexivity|] end.
  cbn [pbind]. apply IH; [assumption|]. intros k Hk. rewrite G; [apply H; now right|]. intros ->. contradiction.
Qed.
Definition drop_entry_d (P : nat -> bool) (i : nat) (s : pindex) (e : nat * Qc) : pr pindex :=
  let (k, _) := e in let+ s := dec_con s i in let+ s := dec_var s k in if P k then Go s else queue_variable_d on g s k.
Definition ready (u : updates) (j : nat) : Prop := is_removed u j = false /\ apart u /\ feasible_value g u j <> None.
Lemma ready_eq u u' j : u_bounds u' = u_bounds u -> u_acts u' = u_acts u -> is_removed u' j = is_removed u j -> ready u j -> ready u' j.
Proof.
  intros B A R (H1 & H2 & H3). split; [congruence|]. split; [unfold apart; now rewrite B, A|]. unfold feasible_value. now rewrite !(bound_of_eq u u').
Qed.
Lemma is_removed_mark s j r k : k <> j -> is_removed (i_u (mark_variable s j r)) k = is_removed (i_u s) k.
Proof.
  intros N. apply eq_true_iff_eq. rewrite !is_removed_In. cbn. rewrite map_app, in_app_iff. cbn. intuition congruence.
Qed.
Lemma queue_variable_rest s j : (exists v, queue_variable g s j = Stop v) \/ queue_variable g s j = PPanic \/
  exists s', queue_variable g s j = Go s' /\ forall k, k <> j -> ready (i_u s) k -> ready (i_u s') k.
Proof.
  unfold queue_variable. destruct (nth j (c_var (i_c s)) 0%nat) as [|[|k]].
  - destruct (qzero (v_cost (gvar g j))).
    + destruct (feasible_value g (i_u s) j) as [v|]; cbn [unwrap pbind]; [|tauto]. right. right. eexists. split; [reflexivity|]. intros k Hk. apply ready_eq; try reflexivity. now apply is_removed_mark.
    + unfold optimize_column. destruct (qzero _); cbn [pbind]; [tauto|]. destruct (match g_objective g with Minimize => _ | Maximize => _ end) as [v|]; cbn [pbind]; [|left; now eexists].
      right. right. eexists. split; [reflexivity|]. intros k Hk. apply ready_eq; try reflexivity. now rewrite is_removed_mark.
  - right. right. eexists. split; [reflexivity|]. intros k Hk. destruct (qzero _); auto.
  - right. right. eexists. split; [reflexivity|]. auto.
Qed.
Lemma drop_entries_here P i : forall l s, NoDup (map fst l) -> (forall k, In k (map fst l) -> ready (i_u s) k) ->
  foldP (drop_entry_d P i) l s = foldP (drop_entry g P i) l s.
Proof.
  induction l as [|[k c] l IH]; intros s ND H; cbn [foldP]; [reflexivity|]. cbn [map fst] in ND, H. apply NoDup_cons_iff in ND. destruct ND as [NI ND].
  cbn [drop_entry drop_entry_d]. unfold dec_con. destruct (dec (c_con (i_c s)) i); try reflexivity. cbn [pbind].
  unfold dec_var. destruct (dec _ k); try reflexivity. cbn [pbind].
  match goal with |- context [if P k then Go ?x else _] => set (s1 := x) end.
  assert (R1 : forall k', In k' (map fst ((k, c) :: l)) -> ready (i_u s1) k') by exact H.
  destruct (P k).
  - cbn [pbind]. apply IH; [assumption|]. intros k' Hk'. apply R1. now right.
  - rewrite queue_variable_here by (intros _; apply R1; now left).
    destruct (queue_variable_rest s1 k) as [[v ->]|[->|(s' & -> & G)]]; try reflexivity. cbn [pbind]. apply IH; [assumption|]. intros k' Hk'. apply G.
    + intros ->. contradiction.
    + apply R1. now right.
Qed.

(** ** A bound is entered *)
Lemma shift_here d change : forall l s, (forall i e, cc s i <> 0%nat -> cache s i e <> None -> ca s i e = 0%nat) ->
  foldP (shift_activity_d on d change) l s = Go (fold_left (shift_activity d change) l s).
Proof.
  induction l as [|[i c] l IH]; intros s H; cbn [foldP fold_left]; [reflexivity|].
  assert (E : shift_activity_d on d change s (i, c) = Go (shift_activity d change s (i, c)) /\
    forall i' e, cc (shift_activity d change s (i, c)) i' <> 0%nat -> cache (shift_activity d change s (i, c)) i' e <> None -> ca (shift_activity d change s (i, c)) i' e = 0%nat).
  { cbn [shift_activity shift_activity_d]. destruct (con_active (i_c s) i) eqn:CA; [|now split].
    destruct (side (bmul d c) (nth i (i_act s) (None, None))) as [x|] eqn:S; [|now split].
    fold (ca s i (bmul d c)). assert (C0 : ca s i (bmul d c) = 0%nat).
    { apply H; [|unfold cache; congruence]. unfold con_active in CA. apply negb_true_iff, Nat.eqb_neq in CA. exact CA. }
    rewrite assert_ok by (now rewrite C0). split; [reflexivity|].
    match goal with |- context [push_act ?s1 ?e1] => set (s2 := s1); set (e2 := e1); destruct (push_act_spec s2 e2) as (P1 & P2 & P3 & _) end.
    intros i' e. unfold cc, cache, ca. rewrite P2, P3. unfold s2. cbn [with_act i_c i_act]. intros Ci.
    destruct (Nat.lt_ge_cases i (length (i_act s))) as [L|L].
    - rewrite nth_pair_upd by assumption. rewrite side_set. destruct (Nat.eqb_spec i' i) as [->|]; [|now apply H].
      destruct (bdir_eqb_spec e (bmul d c)) as [->|]; [intros _; exact C0|now apply H].
    - rewrite nth_overflow in S by assumption. destruct (bmul d c); discriminate. }
  destruct E as [E1 E2]. rewrite E1. cbn [pbind]. now apply IH.
Qed.
Lemma apply_change_here s u' j d new : acts_ok g rows s -> rebound g (i_u s) u' j d new -> (j < n)%nat -> is_removed (i_u s) j = false ->
  apply_change_d on g (with_u s u') j d (change_of d (bound_of g (i_u s) j d) new) = apply_change g (with_u s u') j d (change_of d (bound_of g (i_u s) j d) new).
Proof using M.
  intros O RB Lj R. assert (R' : is_removed u' j = false) by (unfold is_removed; rewrite (sbb_removed _ _ (rb_same _ _ _ _ _ _ RB)); exact R).
  pose proof (rb_apart _ _ _ _ _ _ RB) as A.
  assert (X : forall ch, (match ch with Some x => right_sign d x | None => true end) = true -> after_bound_change_d on g (with_u s u') j d ch = after_bound_change g (with_u s u') j d ch).
  { intros ch S. unfold after_bound_change_d, after_bound_change. cbn [with_u i_u]. rewrite assert_ok by (now rewrite R'). rewrite assert_ok by exact S.
    rewrite fixed_value_here by assumption. cbn [pbind]. cbn [with_u i_c].
    set (s1 := match fixed_value g u' j with Some _ => _ | None => _ end).
    assert (E1 : i_c s1 = i_c s /\ i_act s1 = i_act s) by (unfold s1; destruct (fixed_value g u' j); [destruct (var_active (i_c s) j)|]; split; reflexivity). destruct E1 as [E1 E2].
    destruct ch as [x|].
    - unfold update_activity_bounds_d, update_activity_bounds. rewrite assert_ok by exact S. rewrite active_column_here by assumption. cbn [pbind].
      apply shift_here. intros i e. unfold cc, cache, ca. rewrite E1, E2. apply (ao_cache _ _ _ O).
    - unfold update_activity_counters_d, update_activity_counters. rewrite active_column_here by assumption. reflexivity. }
  unfold change_of. destruct (bound_of g (i_u s) j d) as [old|]; [|now apply X]. destruct (tighter d new old) eqn:T; [|reflexivity]. apply X.
  unfold tighter in T. unfold right_sign. unfold qpos, qneg. destruct d; qb; apply qltb_true; qlra.
Qed.
Lemma enter_agree J s u' j d new : books J s -> rebound g (i_u s) u' j d new -> (cv s j <> 0%nat \/ active_column g (i_c s) j = []) -> (j < n)%nat -> is_removed (i_u s) j = false ->
  agree (apply_change_d on g (with_u s u') j d (change_of d (bound_of g (i_u s) j d) new)) (apply_change g (with_u s u') j d (change_of d (bound_of g (i_u s) j d) new))
    (fun s' => books J s' /\ i_u s' = u' /\ same_counts s s') False.
Proof using M.
  intros B RB J0 Lj R. eapply agree_spec; [apply apply_change_here; try assumption; apply (bk_acts _ _ _ _ B)|]. now apply (set_bound_books g rows M J s u' j d new).
Qed.
End Agree.
