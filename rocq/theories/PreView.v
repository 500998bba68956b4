(** * Presolving: what one step does to the set of feasible points and to the cost

    A view is the problem in the middle of presolving: which variables and which constraints are still there,
    with the recorded changes.  [step w w'] says that going from [w] to [w'] is right: feasible points of
    [w] stay feasible and do not get more expensive, and feasible points of [w'] are feasible for [w] once
    the removed variables have the values recorded for them. *)
From Verif Require Import SpecGeneral SparseP LinAlg StandardP.
From Verif Require Export PreRules PreCount.
Local Open Scope Qc_scope.

(** ** Sparse sums *)
Lemma combination_ext l x y : (forall j c, In (j, c) l -> x j = y j) -> combination l x = combination l y.
Proof.
  induction l as [|[j c] l IH]; intros H; cbn; [reflexivity|]. rewrite IH by (intros k e I; apply (H k e); now right).
  now rewrite (H j c) by now left.
Qed.
Definition only (p : nat -> bool) (l : svec) : svec := filter (fun '(j, _) => p j) l.
Lemma only_In p l j c : In (j, c) (only p l) <-> In (j, c) l /\ p j = true.
Proof. unfold only. now rewrite filter_In. Qed.
Lemma only_ext p q l : (forall j c, In (j, c) l -> p j = q j) -> only p l = only q l.
Proof. intros H. apply filter_ext_in. intros [j c] I. now apply (H j c). Qed.
Lemma only_without p q l j : (forall k, q k = p k && negb (Nat.eqb k j)) -> ~ In j (map fst l) -> only q l = only p l.
Proof.
  intros Q N. apply only_ext. intros k c I. rewrite Q. destruct (Nat.eqb_spec k j) as [->|]; [|apply andb_true_r].
  exfalso. apply N. now apply (in_map fst) in I.
Qed.
Lemma combination_without p q l x j c : (forall k, q k = p k && negb (Nat.eqb k j)) -> NoDup (map fst l) -> In (j, c) l -> p j = true ->
  combination (only p l) x = c * x j + combination (only q l) x.
Proof.
  intros Q ND I P. induction l as [|[k e] l IH]; [contradiction|]. cbn [map fst] in ND. apply NoDup_cons_iff in ND. destruct ND as [NI ND].
  destruct I as [E|I].
  - injection E as -> ->. unfold only. cbn [filter]. rewrite Q, P, Nat.eqb_refl. cbn. f_equal.
    fold (only p l) (only q l). now rewrite (only_without p q l j).
  - unfold only. cbn [filter]. fold (only p l) (only q l). rewrite Q. destruct (Nat.eqb_spec k j) as [->|].
    + exfalso. apply NI. now apply (in_map fst) in I.
    + rewrite andb_true_r. destruct (p k); cbn [combination]; rewrite (IH ND I); ring.
Qed.

(** ** Views *)
Record view := mk_view { on_var : nat -> bool; on_row : nat -> bool; upds : updates }.
(** the value of a removed variable *)
Definition value_of (r : removed) (x : vec) : Qc :=
  match r with Solved v => v | FunctionOf c l => c - combination l x end.
(** the removed variables have the recorded values *)
Definition meets (u : updates) (x : vec) : Prop := forall j r, In (j, r) (u_removed u) -> x j = value_of r x.
Lemma meets_more u u' l x : u_removed u' = u_removed u ++ l -> (meets u' x <-> meets u x /\ forall j r, In (j, r) l -> x j = value_of r x).
Proof.
  intros E. unfold meets. rewrite E. split.
  - intros H. split; intros j r I; apply H, in_or_app; tauto.
  - intros [H1 H2] j r I. apply in_app_or in I. destruct I; auto.
Qed.

Section View.
Variables (g : general) (rows : list svec).
Local Notation n := (nr_vars g).
Local Notation row i := (nth i rows []).

Definition pwithin (u : updates) (j : nat) (x : Qc) : Prop := forall d, obound_holds d (pbound g u j d) x.
(** the feasible points: bounds that are part of the program for certain, and the constraints *)
Definition feas (w : view) (x : vec) : Prop :=
  (forall j, on_var w j = true -> pwithin (upds w) j (x j)) /\
  (forall i, on_row w i = true -> rel_holds (type_of g (upds w) i) (b_of g (upds w) i) (combination (only (on_var w) (row i)) x)).
Definition vcost (w : view) (x : vec) : Qc :=
  g_fixed g + u_fixed (upds w) + sum n (fun j => if on_var w j then v_cost (gvar g j) * x j else 0).
(** the bounds that are used, including those found by propagation, hold at all feasible points *)
Definition implied (w : view) : Prop := forall x, feas w x -> forall j, on_var w j = true -> within g (upds w) j (x j).

Record step (w w' : view) : Prop := mk_step {
  st_less : forall j, on_var w' j = true -> on_var w j = true;
  st_fwd : forall x, feas w x -> feas w' x /\ better (g_objective g) (vcost w' x) (vcost w x);
  st_meets : forall x, meets (upds w') x -> meets (upds w) x /\ vcost w' x = vcost w x;
  st_back : forall x, feas w' x -> meets (upds w') x -> feas w x;
  st_ext : forall x, feas w' x -> exists y, feas w y /\ vcost w y = vcost w' x /\ forall j, on_var w' j = true -> y j = x j }.

Lemma better_refl d a : better d a a.
Proof. destruct d; apply Qcle_refl. Qed.
Lemma better_trans d a b c : better d a b -> better d b c -> better d a c.
Proof. destruct d; cbn; intros; qlra. Qed.
Lemma step_refl w : step w w.
Proof. constructor; auto using better_refl. intros x F. now exists x. Qed.
Lemma step_trans a b c : step a b -> step b c -> step a c.
Proof.
  intros [A1 A2 A3 A4 A5] [B1 B2 B3 B4 B5]. constructor.
  - auto.
  - intros x F. destruct (A2 x F) as [F1 C1]. destruct (B2 x F1) as [F2 C2]. split; [assumption|]. eapply better_trans; eassumption.
  - intros x M. destruct (B3 x M) as [M1 E1]. destruct (A3 x M1) as [M2 E2]. split; [assumption|congruence].
  - intros x F M. apply A4; [|now apply B3]. now apply B4.
  - intros x F. destruct (B5 x F) as (y & F1 & C1 & E1). destruct (A5 y F1) as (z & F2 & C2 & E2). exists z.
    split; [assumption|]. split; [congruence|]. intros j J. rewrite E2; [now apply E1|now apply B1].
Qed.

Lemma vcost_same w w' x : u_fixed (upds w') = u_fixed (upds w) -> (forall j, on_var w' j = on_var w j) -> vcost w' x = vcost w x.
Proof. intros E V. unfold vcost. rewrite E. f_equal. apply sum_ext. intros j _. now rewrite V. Qed.
Lemma vcost_less w w' j x y : (j < n)%nat -> on_var w j = true -> (forall k, on_var w' k = on_var w k && negb (Nat.eqb k j)) ->
  (forall k, k <> j -> x k = y k) ->
  vcost w' x - u_fixed (upds w') = vcost w y - u_fixed (upds w) - v_cost (gvar g j) * y j.
Proof.
  intros J O V E. unfold vcost.
  rewrite (sum_one_changed n j (fun k => if on_var w k then v_cost (gvar g k) * y k else 0) (fun k => if on_var w' k then v_cost (gvar g k) * x k else 0) (- (v_cost (gvar g j) * y j)) J).
  - ring.
  - intros k K D. rewrite V. destruct (Nat.eqb_spec k j); [contradiction|]. rewrite andb_true_r, E by assumption. reflexivity.
  - rewrite V, O, Nat.eqb_refl. cbn. ring.
Qed.

(** *** The set of feasible points does not change *)
Lemma step_same w w' : (forall j, on_var w' j = on_var w j) -> (forall x, feas w x <-> feas w' x) ->
  u_fixed (upds w') = u_fixed (upds w) -> u_removed (upds w') = u_removed (upds w) -> step w w'.
Proof.
  intros V F C R. constructor.
  - intros j. now rewrite V.
  - intros x H. split; [now apply F|]. rewrite (vcost_same w w') by assumption. apply better_refl.
  - intros x M. split; [|now apply vcost_same]. unfold meets in *. now rewrite R in M.
  - intros x H _. now apply F.
  - intros x H. exists x. split; [now apply F|]. split; [symmetry; now apply vcost_same|reflexivity].
Qed.

Definition set_at (x : vec) (j : nat) (v : Qc) : vec := fun k => if Nat.eqb k j then v else x k.
Lemma set_at_same x j v : set_at x j v j = v. Proof. unfold set_at. now rewrite Nat.eqb_refl. Qed.
Lemma set_at_other x j v k : k <> j -> set_at x j v k = x k.
Proof. intros H. unfold set_at. destruct (Nat.eqb_spec k j); [contradiction|reflexivity]. Qed.

Hypothesis rows_nodup : forall i, NoDup (map fst (row i)).

(** *** One variable is removed *)
(** what [feas w] and [feas w'] have to do with each other when [w'] lacks variable [j], which gets the value
    [value_of r x] *)
Lemma step_remove w w' j r :
  (j < n)%nat -> on_var w j = true -> (forall k, on_var w' k = on_var w k && negb (Nat.eqb k j)) ->
  u_removed (upds w') = u_removed (upds w) ++ [(j, r)] ->
  (forall x y, (forall k, k <> j -> x k = y k) -> value_of r x = value_of r y) ->
  (forall x, u_fixed (upds w') = u_fixed (upds w) + v_cost (gvar g j) * value_of r x) ->
  (forall x, feas w x -> feas w' x /\ better (g_objective g) (v_cost (gvar g j) * value_of r x) (v_cost (gvar g j) * x j)) ->
  (forall x, feas w' x -> x j = value_of r x -> feas w x) ->
  step w w'.
Proof.
  intros J O V R D C Fwd Back.
  assert (K : forall x y, (forall k, k <> j -> x k = y k) -> y j = value_of r y -> vcost w' x = vcost w y).
  { intros x y E H. pose proof (vcost_less w w' j x y J O V E) as L. rewrite (C y) in L. rewrite <- H in L. qlra. }
  assert (FE : forall x v, feas w' x -> feas w' (set_at x j v)).
  { intros x v [F1 F2]. split.
    - intros k Hk. rewrite set_at_other; [now apply F1|]. intros ->. rewrite V, Nat.eqb_refl, andb_false_r in Hk. discriminate.
    - intros i Hi. rewrite (combination_ext _ _ x); [now apply F2|]. intros k c I. apply only_In in I. destruct I as [_ I].
      apply set_at_other. intros ->. rewrite V, Nat.eqb_refl, andb_false_r in I. discriminate. }
  constructor.
  - intros k. rewrite V. intros H. now apply andb_true_iff in H.
  - intros x F. destruct (Fwd x F) as [F' B]. split; [assumption|].
    pose proof (vcost_less w w' j x x J O V (fun _ _ => eq_refl)) as L. rewrite (C x) in L. destruct (g_objective g); cbn in *; qlra.
  - intros x M. apply (meets_more _ _ _ _ R) in M. destruct M as [M H]. split; [assumption|]. apply K; [reflexivity|]. apply H. now left.
  - intros x F M. apply (meets_more _ _ _ _ R) in M. destruct M as [M H]. apply Back; [assumption|]. apply H. now left.
  - intros x F. set (y := set_at x j (value_of r x)). assert (E : forall k, k <> j -> x k = y k) by (intros k Hk; unfold y; now rewrite set_at_other).
    assert (Y : y j = value_of r y) by (rewrite <- (D x y E); apply set_at_same). exists y. split; [|split].
    + apply Back; [now apply FE|assumption].
    + symmetry. now apply K.
    + intros k Hk. symmetry. apply E. intros ->. rewrite V, Nat.eqb_refl, andb_false_r in Hk. discriminate.
Qed.

(** the rows before and after a variable is filled in *)
Lemma fix_row w w' j v : on_var w j = true -> (forall k, on_var w' k = on_var w k && negb (Nat.eqb k j)) ->
  (forall i, on_row w i = true -> type_of g (upds w') i = type_of g (upds w) i /\
     (forall c, In (j, c) (row i) -> b_of g (upds w') i = b_of g (upds w) i + - c * v) /\
     (~ In j (map fst (row i)) -> b_of g (upds w') i = b_of g (upds w) i)) ->
  forall i x, on_row w i = true -> x j = v ->
     (rel_holds (type_of g (upds w) i) (b_of g (upds w) i) (combination (only (on_var w) (row i)) x) <->
      rel_holds (type_of g (upds w') i) (b_of g (upds w') i) (combination (only (on_var w') (row i)) x)).
Proof.
  intros O V RB.
  intros i x Oi X. destruct (RB i Oi) as (T & B1 & B2). rewrite T.
  destruct (in_dec Nat.eq_dec j (map fst (row i))) as [I|N].
  - apply in_map_iff in I. destruct I as ([j' c] & E & I). cbn in E. subst j'.
    rewrite (B1 c I), (combination_without (on_var w) (on_var w') (row i) x j c V (rows_nodup i) I O), X.
    rewrite <- (rel_shift (type_of g (upds w) i) (b_of g (upds w) i + - c * v) (c * v)).
    replace (b_of g (upds w) i + - c * v + c * v) with (b_of g (upds w) i) by ring.
    replace (combination (only (on_var w') (row i)) x + c * v) with (c * v + combination (only (on_var w') (row i)) x) by ring. reflexivity.
  - rewrite (B2 N), (only_without (on_var w) (on_var w') (row i) j V N). reflexivity.
Qed.
Lemma fix_back w w' j v : on_var w j = true -> (forall k, on_var w' k = on_var w k && negb (Nat.eqb k j)) ->
  (forall k d, pbound g (upds w') k d = pbound g (upds w) k d) -> pwithin (upds w) j v ->
  (forall i, on_row w i = true -> type_of g (upds w') i = type_of g (upds w) i /\
     (forall c, In (j, c) (row i) -> b_of g (upds w') i = b_of g (upds w) i + - c * v) /\
     (~ In j (map fst (row i)) -> b_of g (upds w') i = b_of g (upds w) i)) ->
  (forall i, on_row w i = true -> on_row w' i = false ->
     only (on_var w') (row i) = [] /\ rel_holds (type_of g (upds w') i) (b_of g (upds w') i) 0) ->
  forall x, feas w' x -> x j = v -> feas w x.
Proof.
  intros O V PB PV RB RG x [F1 F2] X. split.
  - intros k Hk. destruct (Nat.eq_dec k j) as [->|D]; [now rewrite X|]. intros d. rewrite <- PB. apply F1. rewrite V, Hk.
    destruct (Nat.eqb_spec k j); [contradiction|reflexivity].
  - intros i Hi. apply (fix_row w w' j v O V RB i x Hi X). destruct (on_row w' i) eqn:E; [now apply F2|]. destruct (RG i Hi E) as [-> H]. exact H.
Qed.

(** a fixed variable is filled in *)
Lemma step_fix w w' j v :
  (j < n)%nat -> on_var w j = true -> (forall k, on_var w' k = on_var w k && negb (Nat.eqb k j)) ->
  u_removed (upds w') = u_removed (upds w) ++ [(j, Solved v)] -> u_fixed (upds w') = u_fixed (upds w) + v_cost (gvar g j) * v ->
  (forall k d, pbound g (upds w') k d = pbound g (upds w) k d) ->
  (forall x, feas w x -> x j = v) -> pwithin (upds w) j v ->
  (forall i, on_row w' i = true -> on_row w i = true) ->
  (forall i, on_row w i = true -> type_of g (upds w') i = type_of g (upds w) i /\
     (forall c, In (j, c) (row i) -> b_of g (upds w') i = b_of g (upds w) i + - c * v) /\
     (~ In j (map fst (row i)) -> b_of g (upds w') i = b_of g (upds w) i)) ->
  (forall i, on_row w i = true -> on_row w' i = false ->
     only (on_var w') (row i) = [] /\ rel_holds (type_of g (upds w') i) (b_of g (upds w') i) 0) ->
  step w w'.
Proof.
  intros J O V R C PB Fix PV RL RB RG.
  pose proof (fix_row w w' j v O V RB) as RS.
  apply (step_remove w w' j (Solved v)); try assumption.
  - reflexivity.
  - intros x. exact C.
  - intros x F. split; [|cbn; rewrite (Fix x F); apply better_refl]. pose proof (Fix x F) as X. destruct F as [F1 F2]. split.
    + intros k Hk d. rewrite PB. apply F1. rewrite V in Hk. now apply andb_true_iff in Hk.
    + intros i Hi. apply (RS i x); [now apply RL|assumption|]. apply F2. now apply RL.
  - intros x F X. exact (fix_back w w' j v O V PB PV RB RG x F X).
Qed.

Lemma free_back w w' j v : (forall k, on_var w' k = on_var w k && negb (Nat.eqb k j)) ->
  (forall k d, pbound g (upds w') k d = pbound g (upds w) k d) -> pwithin (upds w) j v ->
  (forall i, on_row w i = true -> on_row w' i = true /\ type_of g (upds w') i = type_of g (upds w) i /\ b_of g (upds w') i = b_of g (upds w) i /\
     ~ In j (map fst (row i))) ->
  forall x, feas w' x -> x j = v -> feas w x.
Proof.
  intros V PB PV RO x [F1 F2] X. split.
  - intros k Hk. destruct (Nat.eq_dec k j) as [->|D]; [now rewrite X|]. intros d. rewrite <- PB. apply F1. rewrite V, Hk.
    destruct (Nat.eqb_spec k j); [contradiction|reflexivity].
  - intros i Hi. destruct (RO i Hi) as (R1 & R2 & R3 & NI). rewrite <- R2, <- R3, <- (only_without (on_var w) (on_var w') (row i) j V NI). now apply F2.
Qed.
(** a variable that occurs in no constraint gets its best value *)
Lemma step_free w w' j v :
  (j < n)%nat -> on_var w j = true -> (forall k, on_var w' k = on_var w k && negb (Nat.eqb k j)) ->
  u_removed (upds w') = u_removed (upds w) ++ [(j, Solved v)] -> u_fixed (upds w') = u_fixed (upds w) + v_cost (gvar g j) * v ->
  (forall k d, pbound g (upds w') k d = pbound g (upds w) k d) ->
  (forall i, on_row w' i = on_row w i) -> (forall i, type_of g (upds w') i = type_of g (upds w) i) -> (forall i, b_of g (upds w') i = b_of g (upds w) i) ->
  (forall i, on_row w i = true -> ~ In j (map fst (row i))) ->
  (forall x, feas w x -> better (g_objective g) (v_cost (gvar g j) * v) (v_cost (gvar g j) * x j)) -> pwithin (upds w) j v ->
  step w w'.
Proof.
  intros J O V R C PB RO RT RB NI BT PV. apply (step_remove w w' j (Solved v)); try assumption.
  - reflexivity.
  - intros x. exact C.
  - intros x F. split; [|now apply BT]. destruct F as [F1 F2]. split.
    + intros k Hk d. rewrite PB. apply F1. rewrite V in Hk. now apply andb_true_iff in Hk.
    + intros i Hi. rewrite RO in Hi. rewrite RT, RB, (only_without (on_var w) (on_var w') (row i) j V (NI i Hi)). now apply F2.
  - intros x F X. apply (free_back w w' j v V PB PV); try assumption. intros i Hi. rewrite RO, RT, RB. repeat split; try assumption. now apply NI.
Qed.

Lemma slack_back w w' i j c r : on_var w j = true -> (forall k, on_var w' k = on_var w k && negb (Nat.eqb k j)) ->
  (forall k d, pbound g (upds w') k d = pbound g (upds w) k d) ->
  In (j, c) (row i) -> (forall i', on_row w i' = true -> i' <> i -> ~ In j (map fst (row i'))) ->
  (forall i', i' <> i -> on_row w' i' = on_row w i' /\ type_of g (upds w') i' = type_of g (upds w) i' /\ b_of g (upds w') i' = b_of g (upds w) i') ->
  (forall x, (on_row w' i = true -> rel_holds (type_of g (upds w') i) (b_of g (upds w') i) (combination (only (on_var w') (row i)) x)) ->
     pwithin (upds w) j (value_of r x) /\
     rel_holds (type_of g (upds w) i) (b_of g (upds w) i) (c * value_of r x + combination (only (on_var w') (row i)) x)) ->
  forall x, feas w' x -> x j = value_of r x -> feas w x.
Proof.
  intros O V PB I NI RO Back x [F1 F2] X. destruct (Back x (F2 i)) as [B1 B2]. split.
  - intros k Hk. destruct (Nat.eq_dec k j) as [->|N]; [now rewrite X|]. intros d. rewrite <- PB. apply F1. rewrite V, Hk.
    destruct (Nat.eqb_spec k j); [contradiction|reflexivity].
  - intros i' Hi'. destruct (Nat.eq_dec i' i) as [->|N].
    + rewrite (combination_without (on_var w) (on_var w') (row i) x j c V (rows_nodup i) I O), X. exact B2.
    + destruct (RO i' N) as (E1 & E2 & E3). rewrite <- E2, <- E3, <- (only_without (on_var w) (on_var w') (row i') j V (NI i' Hi' N)).
      apply F2. now rewrite E1.
Qed.
(** the slack variable [j] of row [i] goes *)
Lemma step_slack w w' i j c r :
  (j < n)%nat -> on_var w j = true -> (forall k, on_var w' k = on_var w k && negb (Nat.eqb k j)) ->
  u_removed (upds w') = u_removed (upds w) ++ [(j, r)] -> u_fixed (upds w') = u_fixed (upds w) -> v_cost (gvar g j) = 0 ->
  (forall x y, (forall k, k <> j -> x k = y k) -> value_of r x = value_of r y) ->
  (forall k d, pbound g (upds w') k d = pbound g (upds w) k d) ->
  on_row w i = true -> In (j, c) (row i) -> (forall i', on_row w i' = true -> i' <> i -> ~ In j (map fst (row i'))) ->
  (forall i', i' <> i -> on_row w' i' = on_row w i' /\ type_of g (upds w') i' = type_of g (upds w) i' /\ b_of g (upds w') i' = b_of g (upds w) i') ->
  (forall x, feas w x -> on_row w' i = true -> rel_holds (type_of g (upds w') i) (b_of g (upds w') i) (combination (only (on_var w') (row i)) x)) ->
  (forall x, (on_row w' i = true -> rel_holds (type_of g (upds w') i) (b_of g (upds w') i) (combination (only (on_var w') (row i)) x)) ->
     pwithin (upds w) j (value_of r x) /\
     rel_holds (type_of g (upds w) i) (b_of g (upds w) i) (c * value_of r x + combination (only (on_var w') (row i)) x)) ->
  step w w'.
Proof.
  intros J O V R C Z D PB Oi I NI RO Fwd Back. apply (step_remove w w' j r); try assumption.
  - intros x. rewrite C, Z. ring.
  - intros x F. split; [|rewrite Z; replace (0 * value_of r x) with (0 * x j) by ring; apply better_refl]. pose proof F as [F1 F2]. split.
    + intros k Hk d. rewrite PB. apply F1. rewrite V in Hk. now apply andb_true_iff in Hk.
    + intros i' Hi'. destruct (Nat.eq_dec i' i) as [->|N]; [now apply Fwd|]. destruct (RO i' N) as (E1 & E2 & E3). rewrite E1 in Hi'.
      rewrite E2, E3, (only_without (on_var w) (on_var w') (row i') j V (NI i' Hi' N)). now apply F2.
  - exact (slack_back w w' i j c r O V PB I NI RO Back).
Qed.

(** *** Bounds that are used stay implied *)
Lemma implied_step w w' : step w w' -> implied w ->
  (forall x j, feas w' x -> on_var w' j = true -> within g (upds w) j (x j) -> within g (upds w') j (x j)) -> implied w'.
Proof.
  intros S I H x F j J. apply H; try assumption. destruct (st_ext _ _ S x F) as (y & FY & _ & E). rewrite <- (E j J).
  apply I; [assumption|]. now apply (st_less _ _ S).
Qed.
Lemma implied_same w w' : step w w' -> implied w -> (forall j d, on_var w' j = true -> bound_of g (upds w') j d = bound_of g (upds w) j d) -> implied w'.
Proof. intros S I H. apply (implied_step w w' S I). intros x j _ J W d. rewrite H by assumption. apply W. Qed.

(** *** With some of the constraints only
    The bounds that propagation finds follow from some of the constraints.  To keep track of which ones, steps
    are looked at with the constraints of a set [D] only, for all sets [D] that meet [C]. *)
Definition cut (D : nat -> bool) (w : view) : view := mk_view (on_var w) (fun i => on_row w i && D i) (upds w).
Lemma cut_row D w i : on_row (cut D w) i = true <-> on_row w i = true /\ D i = true.
Proof. apply andb_true_iff. Qed.
Lemma feas_cut w D x : feas w x -> feas (cut D w) x.
Proof. intros [F1 F2]. split; [exact F1|]. intros i Hi. apply cut_row in Hi. now apply F2. Qed.
Lemma feas_cut_less w D D' x : (forall i, D i = true -> D' i = true) -> feas (cut D' w) x -> feas (cut D w) x.
Proof. intros H [F1 F2]. split; [exact F1|]. intros i Hi. apply cut_row in Hi. apply (F2 i). apply cut_row. split; [apply Hi|now apply H]. Qed.
Definition reflects (C : (nat -> bool) -> Prop) (w w' : view) : Prop :=
  forall D, C D -> forall x, feas (cut D w') x -> exists y, feas (cut D w) y /\ forall j, on_var w' j = true -> y j = x j.
Definition cstep (C : (nat -> bool) -> Prop) (w w' : view) : Prop := step w w' /\ reflects C w w'.
Section Cut.
Context {C : (nat -> bool) -> Prop}.
Lemma cstep_refl w : cstep C w w.
Proof. split; [apply step_refl|]. intros D _ x F. now exists x. Qed.
Lemma cstep_trans a b c : cstep C a b -> cstep C b c -> cstep C a c.
Proof.
  intros [A1 A2] [B1 B2]. split; [exact (step_trans a b c A1 B1)|]. intros D HD x F. destruct (B2 D HD x F) as (y & F1 & E1). destruct (A2 D HD y F1) as (z & F2 & E2).
  exists z. split; [assumption|]. intros j J. rewrite E2; [now apply E1|now apply (st_less _ _ B1)].
Qed.
Lemma cstep_same w w' : (forall j, on_var w' j = on_var w j) -> (forall x, feas w x <-> feas w' x) ->
  u_fixed (upds w') = u_fixed (upds w) -> u_removed (upds w') = u_removed (upds w) ->
  (forall D, C D -> forall x, feas (cut D w') x -> feas (cut D w) x) -> cstep C w w'.
Proof.
  intros V F U R B. split; [now apply step_same|]. intros D HD x X. exists x. split; [now apply B|reflexivity].
Qed.
Lemma reflects_remove w w' j : (forall k, on_var w' k = on_var w k && negb (Nat.eqb k j)) ->
  (forall D, C D -> forall x, feas (cut D w') x -> exists v, forall y, (forall k, k <> j -> y k = x k) -> y j = v -> feas (cut D w') y -> feas (cut D w) y) ->
  reflects C w w'.
Proof.
  intros V B D HD x F. destruct (B D HD x F) as (v & H). exists (set_at x j v). split.
  - apply H; [intros k Hk; now apply set_at_other|apply set_at_same|]. destruct F as [F1 F2]. split.
    + intros k Hk. rewrite set_at_other; [now apply F1|]. intros ->. cbn [cut on_var] in Hk. rewrite V, Nat.eqb_refl, andb_false_r in Hk. discriminate.
    + intros i Hi. rewrite (combination_ext _ _ x); [now apply F2|]. intros k c I. apply only_In in I. destruct I as [_ I].
      apply set_at_other. intros ->. cbn [cut on_var] in I. rewrite V, Nat.eqb_refl, andb_false_r in I. discriminate.
  - intros k Hk. apply set_at_other. intros ->. rewrite V, Nat.eqb_refl, andb_false_r in Hk. discriminate.
Qed.
Lemma cstep_fix w w' j v :
  (j < n)%nat -> on_var w j = true -> (forall k, on_var w' k = on_var w k && negb (Nat.eqb k j)) ->
  u_removed (upds w') = u_removed (upds w) ++ [(j, Solved v)] -> u_fixed (upds w') = u_fixed (upds w) + v_cost (gvar g j) * v ->
  (forall k d, pbound g (upds w') k d = pbound g (upds w) k d) ->
  (forall x, feas w x -> x j = v) -> pwithin (upds w) j v ->
  (forall i, on_row w' i = true -> on_row w i = true) ->
  (forall i, on_row w i = true -> type_of g (upds w') i = type_of g (upds w) i /\
     (forall c, In (j, c) (row i) -> b_of g (upds w') i = b_of g (upds w) i + - c * v) /\
     (~ In j (map fst (row i)) -> b_of g (upds w') i = b_of g (upds w) i)) ->
  (forall i, on_row w i = true -> on_row w' i = false ->
     only (on_var w') (row i) = [] /\ rel_holds (type_of g (upds w') i) (b_of g (upds w') i) 0) ->
  cstep C w w'.
Proof.
  intros J O V R U PB Fix PV RL RB RG. split; [now apply (step_fix w w' j v)|]. apply (reflects_remove w w' j V). intros D _ x _. exists v. intros y _ Y F.
  apply (fix_back (cut D w) (cut D w') j v); try assumption.
  - intros i Hi. apply cut_row in Hi. now apply RB.
  - intros i Hi Hi'. apply cut_row in Hi. destruct Hi as [H1 H2]. cbn [cut on_row] in Hi'. rewrite H2, andb_true_r in Hi'. now apply RG.
Qed.
Lemma cstep_free w w' j v :
  (j < n)%nat -> on_var w j = true -> (forall k, on_var w' k = on_var w k && negb (Nat.eqb k j)) ->
  u_removed (upds w') = u_removed (upds w) ++ [(j, Solved v)] -> u_fixed (upds w') = u_fixed (upds w) + v_cost (gvar g j) * v ->
  (forall k d, pbound g (upds w') k d = pbound g (upds w) k d) ->
  (forall i, on_row w' i = on_row w i) -> (forall i, type_of g (upds w') i = type_of g (upds w) i) -> (forall i, b_of g (upds w') i = b_of g (upds w) i) ->
  (forall i, on_row w i = true -> ~ In j (map fst (row i))) ->
  (forall x, feas w x -> better (g_objective g) (v_cost (gvar g j) * v) (v_cost (gvar g j) * x j)) -> pwithin (upds w) j v ->
  cstep C w w'.
Proof.
  intros J O V R U PB RO RT RB NI BT PV. split; [now apply (step_free w w' j v)|]. apply (reflects_remove w w' j V). intros D _ x _. exists v. intros y _ Y F.
  apply (free_back (cut D w) (cut D w') j v); try assumption. intros i Hi. apply cut_row in Hi. destruct Hi as [H1 H2].
  cbn [cut on_row upds]. rewrite RO, RT, RB, H1, H2. repeat split. now apply NI.
Qed.
Lemma cstep_slack w w' i j c r :
  (j < n)%nat -> on_var w j = true -> (forall k, on_var w' k = on_var w k && negb (Nat.eqb k j)) ->
  u_removed (upds w') = u_removed (upds w) ++ [(j, r)] -> u_fixed (upds w') = u_fixed (upds w) -> v_cost (gvar g j) = 0 ->
  (forall x y, (forall k, k <> j -> x k = y k) -> value_of r x = value_of r y) ->
  (forall k d, pbound g (upds w') k d = pbound g (upds w) k d) ->
  on_row w i = true -> In (j, c) (row i) -> (forall i', on_row w i' = true -> i' <> i -> ~ In j (map fst (row i'))) ->
  (forall i', i' <> i -> on_row w' i' = on_row w i' /\ type_of g (upds w') i' = type_of g (upds w) i' /\ b_of g (upds w') i' = b_of g (upds w) i') ->
  (forall x, feas w x -> on_row w' i = true -> rel_holds (type_of g (upds w') i) (b_of g (upds w') i) (combination (only (on_var w') (row i)) x)) ->
  (forall x, (on_row w' i = true -> rel_holds (type_of g (upds w') i) (b_of g (upds w') i) (combination (only (on_var w') (row i)) x)) ->
     pwithin (upds w) j (value_of r x) /\
     rel_holds (type_of g (upds w) i) (b_of g (upds w) i) (c * value_of r x + combination (only (on_var w') (row i)) x)) ->
  (exists v, pwithin (upds w) j v) ->
  cstep C w w'.
Proof.
  intros J O V R U Z DV PB Oi I NI RO Fwd Back [v0 PV]. split; [now apply (step_slack w w' i j c r)|]. apply (reflects_remove w w' j V). intros D _ x _.
  destruct (D i) eqn:DI.
  - exists (value_of r x). intros y E Y F. apply (slack_back (cut D w) (cut D w') i j c r); try assumption.
    + intros i' Hi'. apply cut_row in Hi'. now apply NI.
    + intros i' N. destruct (RO i' N) as (E1 & E2 & E3). cbn [cut on_row upds]. rewrite E1. now repeat split.
    + intros z. cbn [cut on_row on_var upds]. rewrite DI, andb_true_r. apply Back.
    + rewrite Y. apply DV. intros k Hk. symmetry. now apply E.
  - exists v0. intros y E Y F. apply (free_back (cut D w) (cut D w') j v0); try assumption.
    intros i' Hi'. apply cut_row in Hi'. destruct Hi' as [H1 H2]. assert (N : i' <> i) by congruence. destruct (RO i' N) as (E1 & E2 & E3).
    cbn [cut on_row upds]. rewrite E1, H1, H2. repeat split; try assumption. now apply NI.
Qed.
Lemma implied_cstep w w' : cstep C w w' -> implied w ->
  (forall x j, feas w' x -> on_var w' j = true -> within g (upds w) j (x j) -> within g (upds w') j (x j)) -> implied w'.
Proof. intros S. exact (implied_step w w' (proj1 S)). Qed.
Lemma implied_csame w w' : cstep C w w' -> implied w -> (forall j d, on_var w' j = true -> bound_of g (upds w') j d = bound_of g (upds w) j d) -> implied w'.
Proof. intros S. exact (implied_same w w' (proj1 S)). Qed.
End Cut.
End View.
