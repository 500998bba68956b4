(** * Presolving: a row whose activity is known *)
From Verif Require Import SpecGeneral SparseP LinAlg KindP InitP.
From Verif Require Export PreSet.
Local Open Scope Qc_scope.

Section Row_.
Variables (g : general) (rows : list svec).
Local Notation n := (nr_vars g).
Local Notation m := (g_rows g).
Local Notation row i := (nth i rows []).
Local Notation col j := (nth j (g_cols g) []).
Context {Cl : (nat -> bool) -> Prop} {Kn : nat -> bool}.
Local Notation step := (cstep g rows Cl).
Local Notation feas := (feas g rows).
Local Notation vcost := (vcost g).
Local Notation implied := (implied g rows).
Local Notation tidy := (tidy g rows).
Local Notation verdict_holds := (verdict_holds g rows).
Hypothesis M : matrix_ok g rows.
Hypothesis CK : Cl Kn.

Lemma good_trans a b c : @good g rows Cl Kn a b -> @good g rows Cl Kn b c -> @good g rows Cl Kn a c.
Proof.
  intros (A1 & A2 & A3 & A4) (B1 & B2 & B3 & B4). split; [assumption|]. split; [exact (cstep_trans g rows _ _ _ A2 B2)|]. split; [assumption|].
  intros j e v O X. destruct (B4 j e v O X) as [X'|X']; [|now right].
  destruct (A4 j e v (st_less _ _ _ _ (proj1 B2) j O) X') as [Y|Y]; [now left|]. right. intros x F.
  destruct (proj2 B2 Kn CK x F) as (y & FY & E). rewrite <- (E j O). now apply Y.
Qed.

(** the bounds that give the activity follow from other constraints *)
Definition backed (s : pindex) (i : nat) (d : bdir) : Prop := exists E : nat -> bool, E i = false /\
  (forall x, feas (cut E (view_of s)) x -> half_within g (i_u s) d (active_row rows (i_c s) i) x) /\
  (forall D, Cl D -> D i = true -> forall k, E k = true -> D k = true).
Definition row_sound (s : pindex) (i : nat) (d : bdir) : Prop :=
  forall a, activity_sum g (i_u s) d (active_row rows (i_c s) i) = Go a ->
  match decide d (type_of g (i_u s) i) (b_of g (i_u s) i) a with
  | Go (Some Drop) | Go (Some (ReplaceBy _ _)) => backed s i d
  | PPanic => False
  | _ => True
  end.

Lemma variable_part_spec s i d rhs a made : tidy nobody s -> implied (view_of s) -> cc s i <> 0%nat -> ca s i d = 0%nat ->
  usable_side g (i_u s) i d = Some rhs -> activity_sum g (i_u s) d (active_row rows (i_c s) i) = Go a -> @knows g rows Kn s i d ->
  pspec (variable_part g rows s i rhs a d made) (fun r => @kept g rows Cl Kn s (fst r)) (fun _ => False) False.
Proof.
  intros T I Ci C0 US E KN. unfold variable_part.
  change (foldP _ (active_row rows (i_c s) i) (s, made)) with (foldP (vpart_step g rhs a d) (active_row rows (i_c s) i) (s, made)).
  apply (variable_part_fold g rows M CK s d rhs a); [now apply kept_refl|apply (active_row_nd g rows M)|].
  intros j c Hj. pose proof (none_missing g rows s i d T Ci C0 j c Hj) as B. destruct (bound_of g (i_u s) j (bmul d c)) as [v|] eqn:Bv; [|congruence].
  split; [now apply active_row_In in Hj|]. exists v. split; [reflexivity|]. intros x F.
  apply (variable_bound_ok g (i_u s) d (active_row rows (i_c s) i) a x rhs j c v); try assumption.
  - now apply KN.
  - apply (usable_side_ok g (i_u s) i d rhs _ US); [intros r; now apply (td_range _ _ _ _ T)|now apply (row_cut g rows (Kn:=Kn) s i d)].
Qed.
Definition variables_of (s : pindex) (i : nat) (d : bdir) (a : Qc) (made : change) : pr (pindex * change) :=
  match usable_side g (i_u s) i d with Some rhs => variable_part g rows s i rhs a d made | None => Go (s, made) end.
Lemma variables_of_spec s i d a made : tidy nobody s -> implied (view_of s) -> cc s i <> 0%nat -> ca s i d = 0%nat ->
  activity_sum g (i_u s) d (active_row rows (i_c s) i) = Go a -> @knows g rows Kn s i d ->
  pspec (variables_of s i d a made) (fun r => @kept g rows Cl Kn s (fst r)) (fun _ => False) False.
Proof.
  intros T I Ci C0 E KN. unfold variables_of. destruct (usable_side g (i_u s) i d) as [rhs|] eqn:US.
  - now apply variable_part_spec.
  - cbn. now apply kept_refl.
Qed.

(** another relation for a row *)
Definition replaced (s : pindex) (i : nat) (t : rel) (shift : Qc) : pindex := with_u s (change_b g (set_type (i_u s) i t) i shift).
Lemma replaced_kept s i t shift : tidy nobody s -> implied (view_of s) -> cc s i <> 0%nat -> (forall r, t <> Range r) ->
  (exists E : nat -> bool, E i = false /\ (forall D, Cl D -> D i = true -> forall k, E k = true -> D k = true) /\
   forall x, feas (cut E (view_of s)) x ->
     (rel_holds (type_of g (i_u s) i) (b_of g (i_u s) i) (combination (active_row rows (i_c s) i) x) <->
      rel_holds t (b_of g (i_u s) i + shift) (combination (active_row rows (i_c s) i) x))) ->
  @kept g rows Cl Kn s (replaced s i t shift).
Proof.
  intros T I Ci NR (E & Ei & EC & EQ). set (s' := replaced s i t shift).
  assert (TY : forall k, type_of g (i_u s') k = if Nat.eqb k i then t else type_of g (i_u s) k).
  { intros k. unfold type_of at 1. cbn. unfold put. destruct (Nat.eqb_spec k i) as [->|]; [|reflexivity]. reflexivity. }
  assert (BB : forall k, b_of g (i_u s') k = if Nat.eqb k i then b_of g (i_u s) i + shift else b_of g (i_u s) k).
  { intros k. unfold b_of at 1. cbn. unfold put. destruct (Nat.eqb_spec k i) as [->|]; reflexivity. }
  assert (BK : forall D, (D i = true -> forall k, E k = true -> D k = true) -> forall x, feas (cut D (view_of s')) x -> feas (cut D (view_of s)) x).
  { intros D CD x [F1 F2]. split; [exact F1|]. intros k Hk. pose proof (F2 k Hk) as F3. cbn [cut view_of upds on_var] in F3. rewrite TY, BB in F3. destruct (Nat.eqb_spec k i) as [EK|]; [|exact F3].
    rewrite EK in *. apply EQ; [|exact F3]. split; [exact F1|]. intros k' Hk'. apply cut_row in Hk'. destruct Hk' as [H1 H2].
    assert (Hk' : on_row (cut D (view_of s')) k' = true) by (apply cut_row; split; [exact H1|]; apply CD; [apply cut_row in Hk; apply Hk|exact H2]).
    specialize (F2 k' Hk'). cbn [cut view_of upds on_var] in F2. rewrite TY, BB in F2. destruct (Nat.eqb_spec k' i) as [EK'|]; [congruence|exact F2]. }
  assert (FE : forall x, feas (view_of s) x <-> feas (view_of s') x).
  { intros x. split.
    - intros F. pose proof F as [F1 F2]. split; [exact F1|]. intros k Hk. cbn [view_of upds on_var]. rewrite TY, BB. destruct (Nat.eqb_spec k i) as [EK|]; [|now apply (F2 k)]. rewrite EK in *.
      apply EQ; [now apply feas_cut|now apply (F2 i)].
    - intros F. pose proof (BK (fun _ => true) (fun _ _ _ => eq_refl) x (feas_cut g rows _ _ x F)) as [F1 F2]. split; [exact F1|]. intros k Hk. apply (F2 k). apply cut_row. now split. }
  constructor.
  - destruct T as [H1 H2 H3 H4 H5 H6 H7 H8 H9 H10 H11 H12 H13 H14 H15]. constructor; try assumption.
    + intros k r Ck. rewrite TY. destruct (Nat.eqb k i); [intros X; now apply NR in X|now apply H14].
    + destruct H15. constructor; assumption.
  - intros x F. apply FE in F. now apply (I x).
  - exact FE.
  - now split.
  - reflexivity.
  - reflexivity.
  - intros D CD. apply BK. now apply EC.
  - now apply found_same.
Qed.
Lemma replace_no_range d t b a t' sh : decide d t b a = Go (Some (ReplaceBy t' sh)) -> forall r, t' <> Range r.
Proof.
  unfold decide. intros E r. destruct (b ?= a), d, t; try discriminate; try (destruct (a ?= b - r0); try discriminate); injection E as <- <-; discriminate.
Qed.
Lemma drop_unusable d t b a : decide d t b a = Go (Some Drop) -> (t = Less /\ d = Upper) \/ (t = Greater /\ d = Lower).
Proof.
  unfold decide. intros E. destruct (b ?= a), d, t; try discriminate; try (destruct (a ?= b - r); try discriminate); auto.
Qed.

Lemma other_row s i (E : nat -> bool) k : E i = false -> on_row (cut E (view_of s)) k = true -> on_row (without_row s i) k = true.
Proof using. intros Ei H. apply cut_row in H. destruct H as [H1 H2]. cbn in *. rewrite H1. destruct (Nat.eqb_spec k i); [congruence|reflexivity]. Qed.
Lemma other_cut s i (E D : nat -> bool) k : E i = false -> (forall k, E k = true -> D k = true) -> on_row (cut E (view_of s)) k = true -> on_row (cut D (without_row s i)) k = true.
Proof using. intros Ei H X. apply cut_row. split; [now apply (other_row s i E)|]. apply H. now apply cut_row in X. Qed.
Definition after_activity (s : pindex) (i : nat) (d : bdir) (a : Qc) : pr (pindex * change) :=
  let+ r := constraint_part g rows s i d a in
  let '(s, (remove, variables, made)) := r in
  let+ r := (if variables then variables_of s i d a made else Go (s, made)) in
  let (s, made) := r in
  if remove then let+ s := remove_constraint_values g rows s i in Go (mark_constraint s i, made) else Go (s, made).
Lemma removed_row s i (made : change) : (let+ s := remove_constraint_values g rows s i in Go (mark_constraint s i, made)) =
  (let+ s' := drop_row g rows s i in Go (s', made)).
Proof. unfold drop_row. destruct (remove_constraint_values g rows s i); reflexivity. Qed.
Lemma after_activity_spec s i d a : tidy nobody s -> implied (view_of s) -> domains g s -> cc s i <> 0%nat -> ca s i d = 0%nat ->
  activity_sum g (i_u s) d (active_row rows (i_c s) i) = Go a -> row_sound s i d -> @knows g rows Kn s i d ->
  pspec (after_activity s i d a) (fun r => @good g rows Cl Kn s (fst r)) (verdict_holds (view_of s)) False.
Proof.
  intros T I D Ci C0 EA RS KN. specialize (RS a EA). unfold after_activity, constraint_part.
  set (t := type_of g (i_u s) i) in *. set (b := b_of g (i_u s) i) in *.
  assert (RG : forall r, t = Range r -> 0 <= r) by (intros r; now apply (td_range _ _ _ _ T)).
  assert (DK : forall V, bound_holds d a V -> _) by (intros V H; exact (decide_ok d t b a V H RG)).
  assert (BH : forall x, feas (view_of s) x -> bound_holds d a (combination (active_row rows (i_c s) i) x)).
  { intros x F. refine (proj1 (activity_ok g (i_u s) d _ a x EA _)). now apply row_within. }
  destruct (decide d t b a) as [[[|t' shift|]|]|v| |] eqn:DE; cbn [pbind].
  all: try (exfalso; exact RS).
  - (* dropped *)
    unfold variables_of. destruct (drop_unusable d t b a DE) as [[Et Ed]|[Et Ed]]; unfold usable_side; unfold t in Et; rewrite Et, Ed; cbn [pbind]; rewrite removed_row;
    (eapply pspec_bind; [apply (drop_row_spec g rows (Cl:=Cl) (Kn:=Kn) M s i T I D Ci)|]); try (intros s' G; exact G);
      destruct RS as (E & Ei & RS & EC).
    1,3: intros x [F1 F2]; apply (DK _ (proj1 (activity_half g (i_u s) d _ a x EA (RS x (conj F1 (fun k Hk => F2 k (other_row s i E k Ei Hk))))))).
    all: intros Dn CD Di x [F1 F2]; apply (DK _ (proj1 (activity_half g (i_u s) d _ a x EA (RS x (conj F1 (fun k Hk => F2 k (other_cut s i E Dn k Ei (EC Dn CD Di) Hk))))))).
  - (* another relation *)
    assert (K : @kept g rows Cl Kn s (replaced s i t' shift)).
    { apply replaced_kept; try assumption.
      - now apply (replace_no_range d t b a t' shift).
      - destruct RS as (E & Ei & RS & EC). exists E. split; [assumption|]. split; [assumption|]. intros x F. apply (DK _ (proj1 (activity_half g (i_u s) d _ a x EA (RS x F)))). }
    change (with_u s (change_b g (set_type (i_u s) i t') i shift)) with (replaced s i t' shift).
    eapply pspec_bind; [eapply pspec_impl; [apply (variables_of_spec (replaced s i t' shift) i d a Meaningful)|intros r X; exact X|intros ? []|auto]|].
    + apply (kp_tidy _ _ _ _ K).
    + apply (kp_implied _ _ _ _ K).
    + exact Ci.
    + exact C0.
    + exact EA.
    + split; [apply KN|]. intros x F. apply (kp_cut _ _ _ _ K Kn CK) in F. exact (proj2 KN x F).
    + intros [s' made] K'. cbn [fst pspec] in *. apply kept_good. now apply (kept_trans g rows CK s (replaced s i t' shift)).
  - (* all variables are at their bounds *)
    eapply pspec_bind with (Q := fun r => exists s', r = (s', (true, false, Meaningful)) /\ _ s').
    { eapply pspec_bind; [eapply pspec_impl; [apply (set_to_bound_spec g rows (Cl:=Cl) (Kn:=Kn) M s i d a T I D Ci C0 EA)|intros r X; exact X|intros ? []|auto]|].
      - intros x F. apply (DK _ (BH x F)). now apply row_holds.
      - intros s' X. cbn [pspec]. exists s'. split; [reflexivity|]. exact X. }
    intros r (s' & -> & K & D' & _ & SB & FX). cbn [pbind]. rewrite removed_row.
    eapply pspec_bind; [eapply pspec_impl; [apply (drop_row_spec g rows (Cl:=Cl) (Kn:=Kn) M s' i (kp_tidy _ _ _ _ K) (kp_implied _ _ _ _ K) D')|intros r X; exact X|intros v X; exact (verdict_cstep g rows (Cl:=Cl) _ _ _ (kept_step g rows (Cl:=Cl) (Kn:=Kn) _ _ K) X)|auto]|].
    + now rewrite (kept_cc g rows (Cl:=Cl) (Kn:=Kn) s s').
    + intros x [F1 _]. rewrite (kept_row g rows (Cl:=Cl) (Kn:=Kn) s s') by assumption. rewrite (FX x).
      * destruct SB as [B1 B2 B3 B4 B5]. unfold type_of, b_of. rewrite B1, B2. fold (type_of g (i_u s) i) (b_of g (i_u s) i). fold t b.
        assert (HA : bound_holds d a a) by apply bound_holds_refl. now apply (DK a HA).
      * intros j Cj. apply F1. apply (on_var_cv s'). now rewrite (kept_cv g rows (Cl:=Cl) (Kn:=Kn) s s').
    + intros Dn _ _ x [F1 _]. rewrite (kept_row g rows (Cl:=Cl) (Kn:=Kn) s s') by assumption. rewrite (FX x).
      * destruct SB as [B1 B2 B3 B4 B5]. unfold type_of, b_of. rewrite B1, B2. fold (type_of g (i_u s) i) (b_of g (i_u s) i). fold t b.
        assert (HA : bound_holds d a a) by apply bound_holds_refl. now apply (DK a HA).
      * intros j Cj. apply F1. apply (on_var_cv s'). now rewrite (kept_cv g rows (Cl:=Cl) (Kn:=Kn) s s').
    + intros s2 G. cbn [pspec fst]. exact (good_trans _ _ _ (kept_good g rows (Cl:=Cl) (Kn:=Kn) _ _ K) G).
  - (* only the variables *)
    eapply pspec_bind; [eapply pspec_impl; [apply (variables_of_spec s i d a NoneMade T I Ci C0 EA KN)|intros r X; exact X|intros ? []|auto]|].
    intros [s' made] K'. cbn [fst pspec] in *. now apply kept_good.
  - (* infeasible *)
    cbn [pspec]. assert (X : forall x, feas (view_of s) x -> v = VInfeasible /\ False).
    { intros x F. destruct (DK _ (BH x F)) as [E N]. split; [assumption|]. apply N. now apply row_holds. }
    assert (EV : v = VInfeasible) by (destruct (DK a (bound_holds_refl d a)) as [E _]; exact E). rewrite EV. intros x F. now destruct (X x F).
  - exact (DK a (bound_holds_refl d a)).
Qed.

Lemma propagate_row_spec s i d : tidy nobody s -> implied (view_of s) -> domains g s -> cc s i <> 0%nat -> ca s i d = 0%nat ->
  exact_cache g rows s i d -> row_sound s i d -> @knows g rows Kn s i d ->
  pspec (propagate_row g rows s i d) (fun r => @good g rows Cl Kn s (fst r)) (verdict_holds (view_of s)) False.
Proof.
  intros T I D Ci C0 EX RS KN.
  destruct (activity_bound_spec g rows s i d T Ci C0 EX) as (s1 & a & E1 & EA & T1 & U1 & C1 & Q1).
  assert (X : propagate_row g rows s i d = after_activity s1 i d a).
  { unfold propagate_row. rewrite E1. reflexivity. }
  rewrite X. assert (V1 : view_of s1 = view_of s) by (unfold view_of; now rewrite U1, C1).
  eapply pspec_impl; [apply (after_activity_spec s1 i d a T1)| | |].
  - now rewrite V1.
  - intros j. unfold cv. rewrite C1, U1. apply D.
  - unfold cc. now rewrite C1.
  - unfold ca. now rewrite C1.
  - now rewrite U1, C1.
  - intros a'. unfold backed. rewrite V1, U1, C1. apply RS.
  - unfold knows. now rewrite V1, U1, C1.
  - intros r. unfold good, found. now rewrite V1, U1.
  - intros v. now rewrite V1.
  - auto.
Qed.

(** what has to hold for the rule to be right *)
Definition domain_sound (s : pindex) (i : nat) (d : bdir) : Prop :=
  @knows g rows Kn s i d /\ (ca s i d = 0%nat -> exact_cache g rows s i d /\ row_sound s i d).
Lemma domain_propagation_rule_spec s i d : tidy nobody s -> implied (view_of s) -> domains g s -> cc s i <> 0%nat -> (ca s i d <= 1)%nat ->
  domain_sound s i d ->
  pspec (domain_propagation_rule g rows s i d) (fun r => @good g rows Cl Kn s (fst r)) (verdict_holds (view_of s)) False.
Proof.
  intros T I D Ci CA DS. unfold domain_propagation_rule. fold (ca s i d). destruct DS as [KN DS].
  destruct (ca s i d) as [|[|k]] eqn:E; [| |lia].
  - destruct (DS eq_refl). now apply propagate_row_spec.
  - eapply pspec_impl; [apply (bound_one_spec g rows (Cl:=Cl) (Kn:=Kn) M s i d T I Ci E KN)|auto|intros ? []|auto].
Qed.
End Row_.
