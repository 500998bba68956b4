(** * Presolving: propagation does the same in a debug build and in a release build *)
From Verif Require Import SpecGeneral SparseP LinAlg KindP InitP.
From Verif Require Export PreAgreeProp.
Local Open Scope Qc_scope.

Section Rules.
Variable on : site -> bool.
Variables (g : general) (rows : list svec).
Local Notation n := (nr_vars g).
Local Notation m := (g_rows g).
Local Notation row i := (nth i rows []).
Local Notation col j := (nth j (g_cols g) []).
Local Notation in_row := (in_row rows).
Local Notation in_col := (in_col g).
Hypothesis M : matrix_ok g rows.
Local Notation books := (books g rows).
Local Notation calm := (calm g rows).

Lemma row_here J s i j c : books J s -> In (j, c) (active_row rows (i_c s) i) -> is_removed (i_u s) j = false.
Proof using. intros T H. apply (bk_here _ _ _ _ _ T). now apply active_row_In in H. Qed.
Lemma row_nonzero s i j c : In (j, c) (active_row rows (i_c s) i) -> c <> 0 /\ cv s j <> 0%nat.
Proof using M. intros H. apply active_row_In in H. destruct H as [H1 H2]. split; [|assumption]. apply (mo_in _ _ M) in H1. now apply (mo_nz _ _ M) in H1. Qed.

(** ** The activity of a row *)
Lemma activity_sum_here u d l : apart u -> (forall j c, In (j, c) l -> is_removed u j = false) -> activity_sum_d on g u d l = activity_sum g u d l.
Proof using.
  intros A H. unfold activity_sum_d, activity_sum. apply foldP_ext. intros acc [j c] I. now rewrite bound_of_here by (try assumption; now apply (H j c)).
Qed.
Lemma activity_bound_agree s i d : calm s -> cc s i <> 0%nat -> ca s i d = 0%nat ->
  agree (activity_bound_d on g rows s i d) (activity_bound g rows s i d)
    (fun r => calm (fst r) /\ i_u (fst r) = i_u s /\ i_c (fst r) = i_c s /\ activity_bound g rows s i d = Go r) False.
Proof using M.
  intros CALM Ci C0. pose proof CALM as (T & OP & RG). pose proof (bk_cc _ _ _ _ _ T Ci) as Li.
  unfold activity_bound_d, activity_bound. rewrite assert_ok by (fold (ca s i d); now rewrite C0).
  fold (cache s i d). destruct (cache s i d) as [x|] eqn:K; [apply agree_go; split; [exact CALM|now repeat split]|].
  rewrite (active_row_here on g rows M) by assumption. cbn [pbind]. rewrite activity_sum_here; [|apply (bk_apart _ _ _ _ T)|intros j c; now apply (row_here nobody)].
  destruct (activity_sum_known g (i_u s) d (active_row rows (i_c s) i) 0 (bk_known _ _ _ _ _ T Ci C0)) as [a E].
  assert (E' : activity_sum g (i_u s) d (active_row rows (i_c s) i) = Go a) by exact E. rewrite E'. cbn [pbind].
  set (s1 := with_act s _). apply agree_go. split; [|now repeat split]. cbn [fst]. apply (calm_same g rows s); try reflexivity; try assumption; [|auto].
  destruct T as [H1 H2 H3 H4 H5 H6 H7 H8 H9 H10 H11 H12 [X1 X2 X3 X4 X5]]. constructor; try assumption. constructor; try assumption.
  - unfold s1. cbn [with_act i_act]. now rewrite upd_length.
  - intros k e Ck. unfold cache, s1. cbn [with_act i_act]. rewrite nth_pair_upd by (now rewrite X2). rewrite side_set. destruct (Nat.eqb_spec k i) as [->|]; [|now apply X4].
    destruct (bdir_eqb_spec e d) as [->|]; [intros _; exact C0|now apply X4].
Qed.

(** ** All variables of a row are set to their bounds *)
Lemma tighten_opened u j d x : opened g u -> bound_of g u j d = Some x -> tighten (bnot d) (bound_of g u j (bnot d)) x = x.
Proof using.
  intros O B. unfold tighten. destruct (bound_of g u j (bnot d)) as [o|] eqn:E; [|reflexivity]. destruct (tighter (bnot d) x o) eqn:T; [reflexivity|].
  unfold tighter in T. destruct d; cbn [bnot] in *; qb; [specialize (O j x o B E)|specialize (O j o x E B)]; apply Qcle_antisym; assumption.
Qed.
Definition fix_entry_d (d : bdir) : pindex * list (nat * bdir) -> nat * Qc -> pr (pindex * list (nat * bdir)) :=
  fun '(s, todo) '(j, c) =>
      let d' := bmul d c in
      let+ x := bound_of_d on g (i_u s) j d' in
      let+ x := unwrap x in
      let u := match u_acts (i_u s) j d' with
               | Some y => insert_bound j d' (remove_act j d' (i_u s)) y
               | None => i_u s
               end in
      let+ r := update_bound_d on g u j (bnot d') x in
      let todo := match snd r with NewBound => todo ++ [(j, bnot d')] | _ => todo end in
      assert_run on SetFixed (let+ f := fixed_value_d on g (fst r) j in Go (is_some f))
        (Go (push_sub (with_u s (fst r)) j, todo)).
Lemma fix_entries_here d : forall l s todo, NoDup (map fst l) -> apart (i_u s) -> opened g (i_u s) -> (forall j c, In (j, c) l -> is_removed (i_u s) j = false) ->
  (forall j c, In (j, c) l -> bound_of g (i_u s) j (bmul d c) <> None) ->
  foldP (fix_entry_d d) l (s, todo) = foldP (fix_entry g d) l (s, todo).
Proof using.
  induction l as [|[j c] l IH]; intros s todo ND A O R H; cbn [foldP]; [reflexivity|]. cbn [map fst] in ND. apply NoDup_cons_iff in ND. destruct ND as [NI ND].
  pose proof (R j c (or_introl eq_refl)) as Rj. pose proof (H j c (or_introl eq_refl)) as Bj.
  destruct (bound_of g (i_u s) j (bmul d c)) as [x|] eqn:Bx; [|congruence]. clear Bj.
  cbn [fix_entry fix_entry_d]. rewrite bound_of_here by assumption. cbn [pbind]. rewrite Bx. cbn [unwrap pbind]. fold (settle (i_u s) j (bmul d c)).
  destruct (settle_ok g (i_u s) j (bmul d c) x A Bx) as ([S1 S2 S3 S4 S5] & A0 & B0 & P0 & _). set (u0 := settle (i_u s) j (bmul d c)) in *. set (d' := bmul d c) in *.
  assert (R0 : is_removed u0 j = false) by (unfold is_removed; rewrite S4; exact Rj). rewrite update_bound_here by assumption. cbn [pbind].
  destruct (update_bound g u0 j (bnot d') x) as [u1 ch] eqn:UB.
  pose proof (update_bound_ok g u0 j (bnot d') x A0) as UO. rewrite UB in UO. destruct UO as ([W1 W2 W3 W4 W5] & A1 & CH & B1 & P1 & UA). cbn [fst snd].
  assert (BB : forall k e, bound_of g u1 k e = if is_at k e j (bnot d') then Some x else bound_of g (i_u s) k e).
  { intros k e. rewrite B1, !B0. now rewrite (tighten_opened (i_u s) j d' x O Bx). }
  assert (TW : bound_of g u1 j Lower = Some x /\ bound_of g u1 j Upper = Some x).
  { rewrite !BB. destruct d'; cbn [bnot] in *.
    - destruct (is_at_spec j Lower j Upper) as [[_ X]|_]; [discriminate|]. destruct (is_at_spec j Upper j Upper) as [_|N]; [now split|exfalso; apply N; now split].
    - destruct (is_at_spec j Upper j Lower) as [[_ X]|_]; [discriminate|]. destruct (is_at_spec j Lower j Lower) as [_|N]; [now split|exfalso; apply N; now split]. }
  assert (RM : forall k, is_removed u1 k = is_removed (i_u s) k) by (intros k; unfold is_removed; now rewrite W4, S4).
  rewrite assert_run_ok.
  2:{ rewrite fixed_value_here by (try assumption; now rewrite RM). cbn [pbind]. f_equal. unfold fixed_value. destruct TW as [-> ->]. now rewrite (proj2 (qeqb_true x x) eq_refl). }
  cbn [pbind]. apply IH; try assumption; cbn [push_sub with_q with_u i_u].
  - intros k l0 h0. destruct (Nat.eq_dec k j) as [->|Dk].
    + destruct TW as [-> ->]. intros X Y. injection X as <-. injection Y as <-. qlra.
    + rewrite !BB. destruct (is_at_spec k Lower j (bnot d')) as [[E _]|_]; [congruence|]. destruct (is_at_spec k Upper j (bnot d')) as [[E _]|_]; [congruence|]. apply O.
  - intros k e Hk. rewrite RM. apply (R k e). now right.
  - intros k e Hk. rewrite BB. destruct (is_at k (bmul d e) j (bnot d')); [discriminate|]. apply (H k e). now right.
Qed.
Lemma fix_todo d : forall l s todo s' todo', foldP (fix_entry g d) l (s, todo) = Go (s', todo') -> forall j e, In (j, e) todo' -> In (j, e) todo \/ In j (map fst l).
Proof using.
  induction l as [|[j c] l IH]; intros s todo s' todo'; cbn [foldP].
  - intros E. injection E as <- <-. now left.
  - intros E k e Hk. cbn [fix_entry] in E. destruct (unwrap _) as [x| | |]; try discriminate. cbn [pbind] in E.
    destruct (update_bound _ _ _ _ _) as [u ch]. cbn [pbind] in E. apply (IH _ _ _ _ E) in Hk. cbn [map fst In]. destruct Hk as [Hk|Hk]; [|tauto].
    destruct ch; try tauto. apply in_app_or in Hk. destruct Hk as [Hk|[X|[]]]; [tauto|]. injection X as <- <-. tauto.
Qed.
Lemma fixed_opened d l u u' : fixed_at g d l u u' -> opened g u -> (forall j c, In (j, c) l -> bound_of g u j (bmul d c) <> None) -> opened g u'.
Proof using.
  intros FA O H j lo hi BL BU. destruct (in_dec Nat.eq_dec j (map fst l)) as [X|X].
  - apply in_map_iff in X. destruct X as ([k c] & E & Hk). cbn in E. subst k. pose proof (H j c Hk) as Bj. destruct (bound_of g u j (bmul d c)) as [x|] eqn:Bx; [|congruence].
    destruct (fa_this _ _ _ _ _ FA j c x Hk Bx) as (Q1 & _ & Q3 & _). rewrite (tighten_opened u j (bmul d c) x O Bx) in Q3.
    destruct (bmul d c); cbn [bnot] in *; assert (lo = x) by congruence; assert (hi = x) by congruence; subst; qlra.
  - rewrite (proj1 (fa_other _ _ _ _ _ FA j Lower X)) in BL. rewrite (proj1 (fa_other _ _ _ _ _ FA j Upper X)) in BU. now apply (O j).
Qed.
Lemma set_to_bound_agree s i d : calm s -> cc s i <> 0%nat -> ca s i d = 0%nat ->
  agree (set_to_bound_d on g rows s i d) (set_to_bound g rows s i d) (fun s' => calm s' /\ same_counts s s') False.
Proof using M.
  intros CALM Ci C0. pose proof CALM as (T & OP & RG). pose proof (bk_cc _ _ _ _ _ T Ci) as Li. unfold set_to_bound_d, set_to_bound.
  rewrite (active_row_here on g rows M) by assumption. cbn [pbind].
  set (L := active_row rows (i_c s) i) in *. pose proof (active_row_nd g rows M s i) as NDL. fold L in NDL.
  assert (KN : forall j c, In (j, c) L -> bound_of g (i_u s) j (bmul d c) <> None) by exact (bk_known _ _ _ _ _ T Ci C0).
  assert (HL : forall j c, In (j, c) L -> cv s j <> 0%nat /\ bound_of g (i_u s) j (bmul d c) <> None).
  { intros j c Hj. split; [now apply active_row_In in Hj|now apply KN]. }
  match goal with |- agree (pbind ?a _) (pbind ?b _) _ _ => change a with (foldP (fix_entry_d d) L (s, [])); change b with (foldP (fix_entry g d) L (s, [])) end.
  rewrite (fix_entries_here d L s [] NDL (bk_apart _ _ _ _ T) OP) by (try assumption; intros j c; now apply (row_here nobody)).
  pose proof (fix_entries_spec g rows (Cl := fun _ => True) (Kn := nobody) M d L s [] NDL (bk_apart _ _ _ _ T) HL) as SP.
  destruct (foldP (fix_entry g d) L (s, [])) as [[s1 todo]|v| |] eqn:FE; cbn [pspec pbind] in *; [|contradiction|contradiction|contradiction].
  pose proof (fix_todo d L s [] s1 todo FE) as TD. clear FE.
  destruct SP as (E1 & E2 & E3 & E4 & E5 & E6 & FA & more & E7 & E8). cbn [fst snd app] in *. subst more.
  pose proof (bk_acts _ _ _ _ T) as [O1 O2 O3 O4 O5].
  assert (TE : forall k e, total g s1 todo k e = total g s todo k e) by (intros; unfold total; now rewrite E1).
  assert (CA1 : forall k e, ca s1 k e = ca s k e) by (intros; unfold ca; now rewrite E1).
  assert (T0 : forall k e, cc s k = 0%nat -> total g s todo k e = 0%nat).
  { intros k e Hk. unfold total. clear -Hk. induction todo as [|[j d'] t IH]; [reflexivity|]. cbn [map list_sum fold_right]. fold (list_sum (map (fun '(j, d) => hit (active_column g (i_c s) j) d k e) t)). rewrite IH, Nat.add_0_r. unfold hit.
    rewrite (no_entry (active_column g (i_c s) j) k (fun c => bdir_eqb e (bmul d' c))); [reflexivity|]. intros X. rewrite active_column_fst in X. apply alive_In in X. now destruct X. }
  eapply agree_impl; [eapply agree_spec; [|apply (lower_all_spec g rows M todo s1)]| |].
  - apply foldP_ext. intros s' [j e] Hj. unfold update_activity_counters_d. rewrite (active_column_here on g rows M); [reflexivity|].
    apply TD in Hj. destruct Hj as [[]|Hj]. apply in_map_iff in Hj. destruct Hj as ([k c] & E & Hj). cbn in E. subst k. apply (bk_cv _ _ _ _ _ T). now apply (HL j c).
  - now rewrite E1.
  - intros k e. rewrite TE, CA1. destruct (Nat.eq_dec (cc s k) 0) as [Z|Z]; [rewrite (T0 k e Z); lia|]. rewrite (O3 k e Z), (E8 k e Z). lia.
  - cbn beta. intros s2 ([R1 R2 R3 R4 R5] & A1 & A2 & A3 & A4 & A5).
    pose proof (fixed_opened d L _ _ FA OP KN) as OP1.
    destruct FA as [SB AP AC OT TH]. pose proof SB as [B1 B2 B3 B4 B5].
    assert (CV : forall k, cv s2 k = cv s k) by (intros; unfold cv; now rewrite R2, E1).
    assert (CC : forall k, cc s2 k = cc s k) by (intros; unfold cc; now rewrite R3, E1).
    assert (CA : forall k e, ca s2 k e = (ca s k e - total g s todo k e)%nat) by (intros; now rewrite A4, TE, CA1).
    assert (VA : forall k, var_active (i_c s2) k = var_active (i_c s) k) by (intros; rewrite !var_active_cv; now rewrite CV).
    assert (RW : forall k, active_row rows (i_c s2) k = active_row rows (i_c s) k) by (intros k; apply only_ext; intros; apply VA).
    assert (IN : forall k, In k (map fst L) -> exists c x, In (k, c) L /\ bound_of g (i_u s) k (bmul d c) = Some x).
    { intros k Hk. apply in_map_iff in Hk. destruct Hk as ([k' c] & E & Hk). cbn in E. subst k'. destruct (HL k c Hk) as [_ X]. destruct (bound_of g (i_u s) k (bmul d c)) as [x|] eqn:B; [|congruence]. now exists c, x. }
    split; [|split; [now rewrite R2, E1|now rewrite R3, E1]].
    split; [|split; [now rewrite R1|]].
    2:{ intros k r. rewrite CC, R1. unfold type_of. rewrite B2. apply RG. }
    constructor.
    + rewrite R2, E1. apply (bk_nv _ _ _ _ T).
    + rewrite R3, E1. apply (bk_nc _ _ _ _ T).
    + pose proof (bk_bip _ _ _ _ T) as [H1 H2]. unfold bip, alive in *. split.
      * intros k. rewrite CV. intros H. rewrite H1 by assumption. f_equal. apply filter_ext. intros x. now rewrite CC.
      * intros k. rewrite CC. intros H. rewrite H2 by assumption. f_equal. apply filter_ext. intros x. now rewrite CV.
    + rewrite R1, B4. apply (bk_rem_nd _ _ _ _ T).
    + intros k. rewrite R1, B4, CV. apply (bk_rem _ _ _ _ T).
    + rewrite R1, B5. apply (bk_gone_nd _ _ _ _ T).
    + intros k. rewrite R1, B5, CC. apply (bk_gone _ _ _ _ T).
    + intros k. rewrite CC, R4, E3. apply (bk_bq _ _ _ _ T).
    + intros k. rewrite CC, R4, E3. apply (bk_bq' _ _ _ _ T).
    + intros k. rewrite CV, R5, E4. apply (bk_sq _ _ _ _ T).
    + intros k H. rewrite A2 in H. rewrite R1. apply E6 in H. destruct (in_dec Nat.eq_dec k (map fst L)) as [X|X].
      * destruct (IN k X) as (c & x & Hc & Bx). destruct (TH k c x Hc Bx) as (Q1 & _ & Q3 & _).
        rewrite (tighten_opened (i_u s) k (bmul d c) x OP Bx) in Q3.
        unfold crossed. destruct (bmul d c); cbn [bnot] in *; (eexists; eexists; split; [eassumption|split; [eassumption|]]); qlra.
      * destruct H as [H|H]; [|contradiction]. apply (bk_sub _ _ _ _ T) in H. destruct H as (l & h & H1 & H2 & H3). exists l, h. rewrite (proj1 (OT k Lower X)), (proj1 (OT k Upper X)). now repeat split.
    + now rewrite R1.
    + assert (MI : forall k e, cc s k <> 0%nat -> missing g rows s k e = (missing g rows s2 k e + total g s todo k e)%nat).
      { intros k e Ck. rewrite (E8 k e Ck). f_equal. unfold missing. rewrite RW, R1. now rewrite E1. }
      constructor.
      * assumption.
      * now rewrite A1, E2.
      * intros k e Ck. rewrite CC in Ck. rewrite CA, (O3 k e Ck), (MI k e Ck). lia.
      * intros k e Ck K. rewrite CC in Ck. rewrite CA. rewrite (O4 k e Ck); [reflexivity|]. unfold cache in *. now rewrite A1, E2 in K.
      * intros k e H Ck. rewrite CC in Ck. apply A5 in H. destruct H as [H|H]; [|exact H]. rewrite E5 in H. rewrite CA. specialize (O5 k e H Ck). lia.
  - auto.
Qed.

(** ** Bounds on the variables of a row *)
Lemma rebound_opened u u' j e new : rebound g u u' j e new -> opened g u ->
  (forall y, bound_of g u j (bnot e) = Some y -> match e with Lower => new <= y | Upper => y <= new end) -> opened g u'.
Proof using.
  intros RB O H k l h. rewrite !(rb_moved _ _ _ _ _ _ RB).
  destruct (is_at_spec k Lower j e) as [[-> <-]|N1].
  - destruct (is_at_spec j Upper j Lower) as [[_ X]|_]; [discriminate|]. intros X Y. injection X as <-. specialize (H h Y). unfold tighten.
    destruct (bound_of g u j Lower) as [o|] eqn:Z; [|exact H]. destruct (tighter Lower new o); [exact H|]. now apply (O j o h).
  - destruct (is_at_spec k Upper j e) as [[-> <-]|N2]; [|apply O]. intros X Y. injection Y as <-. specialize (H l X). unfold tighten.
    destruct (bound_of g u j Upper) as [o|] eqn:Z; [|exact H]. destruct (tighter Upper new o); [exact H|]. now apply (O j l o).
Qed.
Lemma enter_calm s u' j e new : calm s -> cv s j <> 0%nat -> rebound g (i_u s) u' j e new ->
  (forall y, bound_of g (i_u s) j (bnot e) = Some y -> match e with Lower => new <= y | Upper => y <= new end) ->
  agree (apply_change_d on g (with_u s u') j e (change_of e (bound_of g (i_u s) j e) new)) (apply_change g (with_u s u') j e (change_of e (bound_of g (i_u s) j e) new))
    (fun s' => calm s' /\ i_u s' = u' /\ same_counts s s') False.
Proof using M.
  intros (T & O & R) Cj RB H. eapply agree_impl; [apply (enter_agree on g rows M nobody s u' j e new T RB (or_introl Cj)); [now apply (bk_cv _ _ _ _ _ T)|now apply (bk_here _ _ _ _ _ T)]| |auto].
  cbn beta. intros s' (T' & U & [S1 S2]). split; [|now repeat split]. split; [assumption|]. rewrite U. split; [now apply (rebound_opened (i_u s) u' j e new)|].
  intros i r. unfold cc, type_of. rewrite S2, U, (sbb_types _ _ (rb_same _ _ _ _ _ _ RB)). apply R.
Qed.
(** the side of the row that a bound comes from is not beyond its activity *)
Definition reaches (d : bdir) (a rhs : Qc) : Prop := match d with Lower => a <= rhs | Upper => rhs <= a end.
Lemma new_bound_side d a rhs c x : c <> 0 -> reaches d a rhs ->
  match bmul (bnot d) c with Lower => (rhs - (a - c * x)) / c <= x | Upper => x <= (rhs - (a - c * x)) / c end.
Proof using.
  intros Z S. assert (E : (rhs - (a - c * x)) / c = x + (rhs - a) / c) by (field; assumption). rewrite E. clear E.
  assert (Q : (rhs - a) / c * c = rhs - a) by (field; assumption). set (q := (rhs - a) / c) in *.
  assert (c < 0 \/ 0 < c) as [C|C] by (destruct (Qclt_le_dec c 0) as [C|C]; [now left|right]; destruct (Qclt_le_dec 0 c) as [C'|C']; [exact C'|exfalso; apply Z; now apply Qcle_antisym]).
  - unfold bmul. assert (N : qneg c = true) by (unfold qneg; now apply qltb_true). rewrite N. destruct d; cbn [bnot reaches] in *; [assert (q <= 0)|assert (0 <= q)]; try qlra.
    + destruct (Qclt_le_dec 0 q) as [P|P]; [|exact P]. exfalso. qnra.
    + destruct (Qclt_le_dec q 0) as [P|P]; [|exact P]. exfalso. qnra.
  - unfold bmul. assert (N : qneg c = false) by (unfold qneg; destruct (qltb c 0) eqn:X; [qb; exfalso; qlra|reflexivity]). rewrite N. destruct d; cbn [bnot reaches] in *; [assert (0 <= q)|assert (q <= 0)]; try qlra.
    + destruct (Qclt_le_dec q 0) as [P|P]; [|exact P]. exfalso. qnra.
    + destruct (Qclt_le_dec 0 q) as [P|P]; [|exact P]. exfalso. qnra.
Qed.
Lemma bnot_bmul d c : bnot (bmul (bnot d) c) = bmul d c.
Proof using. unfold bmul. destruct d, (qneg c); reflexivity. Qed.
Definition vpart_step_d (rhs activity : Qc) (d : bdir) : pindex * change -> nat * Qc -> pr (pindex * change) :=
  fun '(s, made) '(j, c) =>
      let+ x := bound_of_d on g (i_u s) j (bmul d c) in
      let+ x := unwrap x in
      let residual := activity - c * x in
      let+ r := update_activity_bound_d on g (i_u s) j (bmul (bnot d) c) ((rhs - residual) / c) in
      let+ s := apply_change_d on g (with_u s (fst r)) j (bmul (bnot d) c) (snd r) in
      Go (s, upgrade made (snd r)).
Lemma vpart_agree d rhs a : reaches d a rhs -> forall l s made, calm s -> NoDup (map fst l) ->
  (forall j c, In (j, c) l -> c <> 0 /\ cv s j <> 0%nat /\ bound_of g (i_u s) j (bmul d c) <> None) ->
  agree (foldP (vpart_step_d rhs a d) l (s, made)) (foldP (vpart_step g rhs a d) l (s, made)) (fun r => calm (fst r) /\ same_counts s (fst r)) False.
Proof using M.
  intros S. induction l as [|[j c] l IH]; intros s made CALM ND H; cbn [foldP].
  - apply agree_go. split; [exact CALM|now split].
  - cbn [map fst] in ND. apply NoDup_cons_iff in ND. destruct ND as [NI ND].
    destruct (H j c (or_introl eq_refl)) as (Z & Cj & Bj). pose proof CALM as (T & O & R). pose proof (bk_here _ _ _ _ _ T Cj) as HR. pose proof (bk_apart _ _ _ _ T) as AP.
    cbn [vpart_step vpart_step_d]. rewrite bound_of_here by assumption. cbn [pbind].
    destruct (bound_of g (i_u s) j (bmul d c)) as [v|] eqn:Bv; [|congruence]. cbn [unwrap pbind]. rewrite update_activity_bound_here by assumption. cbn [pbind].
    destruct (update_activity_bound g (i_u s) j (bmul (bnot d) c) ((rhs - (a - c * v)) / c)) as [u' ch] eqn:UB. cbn [fst snd].
    destruct (update_activity_rebound g _ _ _ _ _ _ AP UB) as [RB ->].
    eapply agree_bind with (Q := fun r => calm (fst r) /\ i_u (fst r) = u' /\ same_counts s (fst r)).
    + eapply agree_bind; [apply (enter_calm s u' j (bmul (bnot d) c) _ CALM Cj RB)|].
      * rewrite bnot_bmul, Bv. intros y Y. injection Y as <-. now apply new_bound_side.
      * intros s' X. apply agree_go. exact X.
    + intros [s' made'] (CALM' & U & [S1 S2]). cbn [fst] in *. eapply agree_impl; [apply (IH s' made' CALM' ND)| |auto].
      * intros k e Hk. destruct (H k e (or_intror Hk)) as (Zk & Ck & Bk). split; [assumption|]. split; [unfold cv; now rewrite S1|].
        rewrite U, (rb_moved _ _ _ _ _ _ RB). destruct (is_at_spec k (bmul d e) j (bmul (bnot d) c)) as [[EK _]|N]; [discriminate|assumption].
      * cbn beta. intros r (X & [Y1 Y2]). split; [assumption|]. split; congruence.
Qed.
Definition side_of (t : rel) (b : Qc) (d : bdir) : option Qc :=
  match t, d with
  | Equal, _ => Some b
  | Range _, Lower => Some b
  | Range r, Upper => Some (b - r)
  | Less, Lower => Some b
  | Less, Upper => None
  | Greater, Lower => None
  | Greater, Upper => Some b
  end.
Lemma usable_side_of u i d : usable_side g u i d = side_of (type_of g u i) (b_of g u i) d.
Proof using. reflexivity. Qed.
Lemma usable_side_here u i d : is_gone u i = false -> usable_side_d on g u i d = Go (usable_side g u i d).
Proof using. intros H. unfold usable_side_d. rewrite b_of_here, type_of_here by assumption. reflexivity. Qed.
Lemma decide_none_side d t b a rhs : (forall r, t = Range r -> 0 <= r) -> decide d t b a = Go None -> side_of t b d = Some rhs -> reaches d a rhs.
Proof using.
  intros R E S. unfold decide in E. unfold side_of in S. destruct (b ?= a) eqn:Q, d, t as [|r| |]; try discriminate; try (destruct (a ?= b - r) eqn:Q'; discriminate); injection S as <-;
  cbn [reaches]; first [apply Qclt_alt in Q|apply Qcgt_alt in Q]; try specialize (R _ eq_refl); qlra.
Qed.
Lemma decide_replace_side d t b a t' sh rhs : (forall r, t = Range r -> 0 <= r) -> decide d t b a = Go (Some (ReplaceBy t' sh)) -> side_of t' (b + sh) d = Some rhs -> reaches d a rhs.
Proof using.
  intros R E S. unfold decide in E. unfold side_of in S. destruct (b ?= a) eqn:Q, d, t as [|r| |]; try discriminate; try (destruct (a ?= b - r) eqn:Q'; try discriminate); injection E as <- <-; injection S as <-;
  cbn [reaches]; first [apply Qclt_alt in Q|apply Qcgt_alt in Q|apply Qceq_alt in Q]; try (first [apply Qclt_alt in Q'|apply Qcgt_alt in Q'|apply Qceq_alt in Q']); try specialize (R _ eq_refl); try (change (b - r < a) in Q'); qlra.
Qed.
Lemma variables_agree s i d a made : calm s -> cc s i <> 0%nat -> ca s i d = 0%nat ->
  (forall rhs, usable_side g (i_u s) i d = Some rhs -> reaches d a rhs) ->
  agree (let+ side := usable_side_d on g (i_u s) i d in match side with Some rhs => variable_part_d on g rows s i rhs a d made | None => Go (s, made) end)
    (variables_of g rows s i d a made) (fun r => calm (fst r) /\ same_counts s (fst r)) False.
Proof using M.
  intros CALM Ci C0 S. pose proof CALM as (T & O & R). rewrite usable_side_here by now apply (bk_present _ _ _ _ _ T). cbn [pbind]. unfold variables_of.
  destruct (usable_side g (i_u s) i d) as [rhs|]; [|apply agree_go; split; [exact CALM|now split]].
  unfold variable_part_d, variable_part. rewrite (active_row_here on g rows M) by (try assumption; now apply (bk_cc _ _ _ _ _ T)). cbn [pbind].
  apply (vpart_agree d rhs a (S rhs eq_refl)); [assumption|apply (active_row_nd g rows M)|].
  intros j c Hj. destruct (row_nonzero s i j c Hj). repeat split; try assumption. now apply (bk_known _ _ _ _ _ T Ci C0).
Qed.

(** ** A row whose activity is known *)
Definition activity_known (s : pindex) (i : nat) (d : bdir) : pr Qc :=
  match cache s i d with Some x => Go x | None => activity_sum g (i_u s) d (active_row rows (i_c s) i) end.
Lemma activity_bound_known s i d s1 a : activity_bound g rows s i d = Go (s1, a) -> activity_known s i d = Go a.
Proof using.
  unfold activity_bound, activity_known. fold (cache s i d). destruct (cache s i d) as [x|]; [intros E; now injection E as _ ->|].
  intros E. apply pbind_go in E. destruct E as (x & E1 & E2). injection E2 as _ <-. exact E1.
Qed.
(** the one panic of a release build: a range constraint whose right-hand side is its smallest activity *)
Definition range_at_bound (s : pindex) (i : nat) (d : bdir) : Prop :=
  d = Lower /\ (exists r, type_of g (i_u s) i = Range r) /\ activity_known s i d = Go (b_of g (i_u s) i).
Lemma decide_panic d t b a : decide d t b a = PPanic -> d = Lower /\ (exists r, t = Range r) /\ a = b.
Proof using.
  unfold decide. destruct (b ?= a) eqn:Q, d, t as [|r| |]; try discriminate; try (destruct (a ?= b - r); discriminate).
  intros _. apply Qceq_alt in Q. split; [reflexivity|]. split; [now exists r|now symmetry].
Qed.
Lemma decide_fuel d t b a : decide d t b a <> PFuel.
Proof using. unfold decide. destruct (b ?= a) eqn:Q, d, t as [|r| |]; try discriminate; destruct (a ?= b - r); discriminate. Qed.
Lemma replaced_calm s i t shift : calm s -> cc s i <> 0%nat -> (forall r, t <> Range r) -> calm (replaced g s i t shift).
Proof using.
  intros (T & O & R) Ci NR. split; [|split].
  - apply (books_types g rows s); try reflexivity; assumption.
  - exact O.
  - intros k r Ck. unfold type_of. cbn. unfold put. destruct (Nat.eqb_spec k i) as [->|]; [intros X; now apply NR in X|]. now apply R.
Qed.
Lemma propagate_row_agree s i d : calm s -> cc s i <> 0%nat -> ca s i d = 0%nat ->
  agree (propagate_row_d on g rows s i d) (propagate_row g rows s i d) (fun r => calm (fst r)) (range_at_bound s i d).
Proof using M.
  intros CALM Ci C0. unfold propagate_row_d, propagate_row. rewrite assert_ok by (fold (ca s i d); now rewrite C0).
  eapply agree_bind; [eapply agree_impl; [apply (activity_bound_agree s i d CALM Ci C0)|intros r X; exact X|intros []]|].
  cbn beta. intros [s1 a] (CALM1 & U1 & C1 & AB). cbn [fst] in *.
  assert (Ci1 : cc s1 i <> 0%nat) by (unfold cc; now rewrite C1). assert (C01 : ca s1 i d = 0%nat) by (unfold ca; now rewrite C1).
  pose proof CALM1 as (T1 & O1 & R1). pose proof (bk_present _ _ _ _ _ T1 Ci1) as HP.
  unfold constraint_part_d, constraint_part. rewrite b_of_here, type_of_here by assumption. cbn [pbind].
  set (t := type_of g (i_u s1) i) in *. set (b := b_of g (i_u s1) i) in *.
  assert (RG : forall r, t = Range r -> 0 <= r) by (intros r; now apply R1).
  destruct (decide d t b a) as [[[|t' shift|]|]|v| |] eqn:DE; cbn [pbind].
  - (* dropped *)
    assert (US : usable_side g (i_u s1) i d = None).
    { rewrite usable_side_of. fold t b. destruct (drop_unusable d t b a DE) as [[Et Ed]|[Et Ed]]; rewrite Et, Ed; reflexivity. }
    rewrite usable_side_here by assumption. cbn [pbind]. rewrite US. cbn [pbind].
    eapply agree_impl; [apply (drop_row_agree on g rows M s1 i Meaningful CALM1 Ci1)|auto|intros []].
  - (* another relation *)
    rewrite change_b_here by exact HP. cbn [pbind]. change (with_u s1 (change_b g (set_type (i_u s1) i t') i shift)) with (replaced g s1 i t' shift).
    pose proof (replaced_calm s1 i t' shift CALM1 Ci1 (replace_no_range d t b a t' shift DE)) as CALM2.
    eapply agree_bind; [eapply agree_impl; [apply (variables_agree (replaced g s1 i t' shift) i d a Meaningful CALM2 Ci1 C01)|intros r X; exact X|intros []]|].
    + intros rhs US. rewrite usable_side_of in US.
      assert (TY : type_of g (i_u (replaced g s1 i t' shift)) i = t') by (unfold type_of; cbn; unfold put; now rewrite Nat.eqb_refl).
      assert (BB : b_of g (i_u (replaced g s1 i t' shift)) i = b + shift) by (unfold b_of at 1; cbn; unfold put; now rewrite Nat.eqb_refl).
      rewrite TY, BB in US. now apply (decide_replace_side d t b a t' shift rhs RG DE).
    + intros [s' made] [K _]. now apply agree_go.
  - (* all variables are at their bounds *)
    eapply agree_bind with (Q := fun r => exists s', r = (s', (true, false, Meaningful)) /\ calm s' /\ same_counts s1 s').
    { eapply agree_bind; [eapply agree_impl; [apply (set_to_bound_agree s1 i d CALM1 Ci1 C01)|intros r X; exact X|intros []]|].
      intros s' X. apply agree_go. now exists s'. }
    intros r (s' & -> & K & [_ S2]). cbn [pbind]. eapply agree_impl; [apply (drop_row_agree on g rows M s' i Meaningful K); unfold cc; now rewrite S2|auto|intros []].
  - (* only the variables *)
    eapply agree_bind; [eapply agree_impl; [apply (variables_agree s1 i d a NoneMade CALM1 Ci1 C01)|intros r X; exact X|intros []]|].
    + intros rhs US. rewrite usable_side_of in US. now apply (decide_none_side d t b a rhs RG DE).
    + intros [s' made] [K _]. now apply agree_go.
  - apply agree_stop.
  - split; [reflexivity|]. cbn [pspec]. destruct (decide_panic d t b a DE) as (Ed & (r & Er) & Ea). split; [assumption|]. split; [exists r; unfold t in Er; now rewrite U1 in Er|]. apply activity_bound_known in AB. rewrite AB, Ea. unfold b. now rewrite U1.
  - exfalso. now apply decide_fuel in DE.
Qed.

(** ** One missing bound *)
Lemma known_activity_here u d : apart u -> forall l acc, (forall j c, In (j, c) l -> is_removed u j = false) ->
  foldP (fun acc '(j, c) => let+ x := bound_of_d on g u j (bmul d c) in Go (match x with Some x => acc + c * x | None => acc end)) l acc =
  Go (fold_left (fun acc '(j, c) => match bound_of g u j (bmul d c) with Some x => acc + c * x | None => acc end) l acc).
Proof using.
  intros A. induction l as [|[j c] l IH]; intros acc H; cbn [foldP fold_left]; [reflexivity|]. rewrite bound_of_here by (try assumption; apply (H j c); now left). cbn [pbind].
  apply IH. intros k e Hk. apply (H k e). now right.
Qed.
Lemma missing_entry_here u d : apart u -> forall l, (forall j c, In (j, c) l -> is_removed u j = false) -> missing_entry_d on g u d l = Go (missing_entry g u d l).
Proof using.
  intros A. unfold missing_entry. induction l as [|[j c] l IH]; intros H; cbn [missing_entry_d find]; [reflexivity|]. rewrite bound_of_here by (try assumption; apply (H j c); now left). cbn [pbind].
  destruct (bound_of g u j (bmul d c)); cbn [is_some]; [|reflexivity]. apply IH. intros k e Hk. apply (H k e). now right.
Qed.
Lemma count_missing_here u d : apart u -> forall l, (forall j c, In (j, c) l -> is_removed u j = false) -> count_missing_d on g u d l = Go (length (filter (lacks_bound g u d) l)).
Proof using.
  intros A. induction l as [|[j c] l IH]; intros H; cbn [count_missing_d filter]; [reflexivity|]. rewrite bound_of_here by (try assumption; apply (H j c); now left). cbn [pbind].
  rewrite IH by (intros k e Hk; apply (H k e); now right). cbn [pbind]. assert (E : lacks_bound g u d (j, c) = negb (is_some (bound_of g u j (bmul d c)))) by (unfold lacks_bound; cbn [fst snd]; now destruct (bound_of g u j (bmul d c))).
  rewrite E. destruct (bound_of g u j (bmul d c)); reflexivity.
Qed.
Lemma bound_one_agree s i d : calm s -> cc s i <> 0%nat -> ca s i d = 1%nat ->
  agree (bound_one_d on g rows s i d) (bound_one g rows s i d) (fun r => calm (fst r)) False.
Proof using M.
  intros CALM Ci C1. pose proof CALM as (T & O & R). pose proof (bk_apart _ _ _ _ T) as AP. unfold bound_one_d, bound_one. rewrite assert_ok by (fold (ca s i d); now rewrite C1).
  rewrite usable_side_here by now apply (bk_present _ _ _ _ _ T). cbn [pbind]. destruct (usable_side g (i_u s) i d) as [rhs|]; [|now apply agree_go].
  rewrite (active_row_here on g rows M) by (try assumption; now apply (bk_cc _ _ _ _ _ T)). cbn [pbind]. set (L := active_row rows (i_c s) i).
  assert (HR : forall j c, In (j, c) L -> is_removed (i_u s) j = false) by (intros j c; now apply (row_here nobody)).
  unfold known_activity_d. rewrite (known_activity_here (i_u s) d AP L 0 HR). cbn [pbind]. fold (known_activity g (i_u s) d L).
  rewrite (missing_entry_here (i_u s) d AP L HR). cbn [pbind].
  assert (MS : length (filter (lacks_bound g (i_u s) d) L) = 1%nat) by (rewrite <- C1; symmetry; now apply (ao_missing _ _ _ (bk_acts _ _ _ _ T))).
  destruct (missing_entry g (i_u s) d L) as [[j c]|] eqn:ME.
  2:{ exfalso. destruct (filter (lacks_bound g (i_u s) d) L) as [|e l] eqn:E; [discriminate|].
      assert (X : In e (filter (lacks_bound g (i_u s) d) L)) by (rewrite E; now left). apply filter_In in X. destruct X as [X1 X2].
      unfold missing_entry in ME. apply (find_none _ _ ME) in X1. destruct e as [k a]. unfold lacks_bound in X2. cbn in X2. congruence. }
  cbn [unwrap pbind]. pose proof (find_some _ _ ME) as [Hj Bj]. cbn beta in Bj. rewrite update_activity_bound_here by now apply (HR j c). cbn [pbind].
  destruct (update_activity_bound g (i_u s) j (bmul (bnot d) c) ((rhs - known_activity g (i_u s) d L) / c)) as [u' ch] eqn:UB. cbn [fst snd].
  destruct (update_activity_rebound g _ _ _ _ _ _ AP UB) as [RB ->].
  eapply agree_bind; [apply (enter_calm s u' j (bmul (bnot d) c) _ CALM); [now apply (row_nonzero s i j c)|exact RB|]|].
  - rewrite bnot_bmul. intros y Y. rewrite Y in Bj. discriminate.
  - intros s' (K & _). now apply agree_go.
Qed.
Lemma domain_propagation_agree s i d : calm s -> cc s i <> 0%nat -> (ca s i d <= 1)%nat ->
  agree (domain_propagation_rule_d on g rows s i d) (domain_propagation_rule g rows s i d) (fun r => calm (fst r)) (ca s i d = 0%nat /\ range_at_bound s i d).
Proof using M.
  intros CALM Ci C1. pose proof CALM as (T & O & R). unfold domain_propagation_rule_d, domain_propagation_rule.
  rewrite (active_row_here on g rows M) by (try assumption; now apply (bk_cc _ _ _ _ _ T)). cbn [pbind].
  rewrite count_missing_here; [|apply (bk_apart _ _ _ _ T)|intros j c; now apply (row_here nobody)]. cbn [pbind]. fold (missing g rows s i d). fold (ca s i d).
  rewrite assert_ok by (rewrite <- (ao_missing _ _ _ (bk_acts _ _ _ _ T)) by assumption; apply Nat.eqb_refl).
  destruct (ca s i d) as [|[|k]] eqn:E; [| |lia].
  - eapply agree_impl; [now apply propagate_row_agree|auto|now split].
  - eapply agree_impl; [now apply bound_one_agree|auto|intros []].
Qed.
End Rules.
