(** * Presolving: all variables of a row are set to their bounds *)
From Verif Require Import SpecGeneral SparseP LinAlg KindP InitP.
From Verif Require Export PreProp.
Local Open Scope Qc_scope.

Section Set_.
Variables (g : general) (rows : list svec).
Local Notation n := (nr_vars g).
Local Notation m := (g_rows g).
Local Notation row i := (nth i rows []).
Local Notation col j := (nth j (g_cols g) []).
Context {Cl : (nat -> bool) -> Prop} {Kn : nat -> bool}.
Local Notation step := (cstep g rows Cl).
Local Notation feas := (feas g rows).
Local Notation vcost := (vcost g).
Local Notation implied := (implied g rows).
Local Notation tidy := (tidy g rows).
Local Notation in_row := (in_row rows).
Local Notation in_col := (in_col g).
Local Notation verdict_holds := (verdict_holds g rows).
Hypothesis M : matrix_ok g rows.

(** a bound found by propagation becomes a bound of the program *)
Definition settle (u : updates) (j : nat) (d : bdir) : updates :=
  match u_acts u j d with Some y => insert_bound j d (remove_act j d u) y | None => u end.
Lemma settle_ok u j d x : apart u -> bound_of g u j d = Some x -> let u' := settle u j d in
  same_but_bounds u u' /\ apart u' /\ (forall k e, bound_of g u' k e = bound_of g u k e) /\
  (forall k e, pbound g u' k e = if is_at k e j d then Some x else pbound g u k e) /\ u_acts u' j d = None.
Proof.
  intros A B. unfold settle. rewrite bound_of_cases in B. destruct (u_acts u j d) as [y|] eqn:E; cbn zeta.
  - injection B as ->.
    assert (BN : u_bounds u j d = None) by (destruct (u_bounds u j d) eqn:Y; [assert (u_acts u j d = None) by (apply A; congruence); congruence|reflexivity]).
    split; [now constructor|]. split; [|split; [|split]].
    + intros k e. cbn. unfold put2. fold (is_at k e j d). destruct (is_at k e j d); [reflexivity|apply A].
    + intros k e. rewrite !bound_of_cases. unfold pbound. cbn. unfold put2. fold (is_at k e j d). destruct (is_at_spec k e j d) as [[-> ->]|N]; [now rewrite E|reflexivity].
    + intros k e. unfold pbound. cbn. unfold put2. fold (is_at k e j d). destruct (is_at k e j d); reflexivity.
    + cbn. unfold put2. fold (is_at j d j d). destruct (is_at_spec j d j d) as [_|N]; [reflexivity|exfalso; apply N; now split].
  - split; [now constructor|]. split; [assumption|]. split; [reflexivity|]. split; [|assumption].
    intros k e. destruct (is_at_spec k e j d) as [[-> ->]|N]; [assumption|reflexivity].
Qed.

Lemma settle_acts u j d k e v : u_acts (settle u j d) k e = Some v -> u_acts u k e = Some v.
Proof.
  unfold settle. destruct (u_acts u j d) as [y|] eqn:E; [|auto]. cbn. unfold put2. fold (is_at k e j d). destruct (is_at k e j d); [discriminate|auto].
Qed.
Definition fix_entry (d : bdir) : pindex * list (nat * bdir) -> nat * Qc -> pr (pindex * list (nat * bdir)) :=
  fun '(s, todo) '(j, c) =>
      let d' := bmul d c in
      let+ x := unwrap (bound_of g (i_u s) j d') in
      let u := match u_acts (i_u s) j d' with
               | Some y => insert_bound j d' (remove_act j d' (i_u s)) y
               | None => i_u s
               end in
      let (u, change) := update_bound g u j (bnot d') x in
      let todo := match change with NewBound => todo ++ [(j, bnot d')] | _ => todo end in
      Go (push_sub (with_u s u) j, todo).
Definition total (s : pindex) (todo : list (nat * bdir)) (k : nat) (e : bdir) : nat :=
  list_sum (map (fun '(j, d) => hit (active_column g (i_c s) j) d k e) todo).
(** the variables of [l] are fixed, the others are as they were *)
Record fixed_at (d : bdir) (l : svec) (u u' : updates) : Prop := mk_fa {
  fa_same : same_but_bounds u u';
  fa_apart : apart u';
  fa_acts : forall k e v, u_acts u' k e = Some v -> u_acts u k e = Some v;
  fa_other : forall k e, ~ In k (map fst l) -> bound_of g u' k e = bound_of g u k e /\ pbound g u' k e = pbound g u k e;
  fa_this : forall j c x, In (j, c) l -> bound_of g u j (bmul d c) = Some x ->
     bound_of g u' j (bmul d c) = Some x /\ pbound g u' j (bmul d c) = Some x /\
     bound_of g u' j (bnot (bmul d c)) = Some (tighten (bnot (bmul d c)) (bound_of g u j (bnot (bmul d c))) x) /\
     pbound g u' j (bnot (bmul d c)) = Some (tighten (bnot (bmul d c)) (bound_of g u j (bnot (bmul d c))) x) }.
Lemma bnot_neq d : bnot d <> d. Proof. destruct d; discriminate. Qed.
Lemma fix_entries_spec d : forall l s todo, NoDup (map fst l) -> apart (i_u s) -> (forall j c, In (j, c) l -> cv s j <> 0%nat /\ bound_of g (i_u s) j (bmul d c) <> None) ->
  pspec (foldP (fix_entry d) l (s, todo)) (fun r => let (s', todo') := r in
     i_c s' = i_c s /\ i_act s' = i_act s /\ q_bound (i_q s') = q_bound (i_q s) /\ q_slack (i_q s') = q_slack (i_q s) /\ q_act (i_q s') = q_act (i_q s) /\
     (forall j, In j (q_sub (i_q s')) <-> In j (q_sub (i_q s)) \/ In j (map fst l)) /\
     fixed_at d l (i_u s) (i_u s') /\
     exists more, todo' = todo ++ more /\ forall k e, cc s k <> 0%nat -> missing g rows s k e = (missing g rows s' k e + total s more k e)%nat)
   (fun _ => False) False.
Proof.
  induction l as [|[j c] l IH]; intros s todo ND A H; cbn [foldP].
  - cbn [pspec]. do 5 (split; [reflexivity|]). split; [cbn; tauto|]. split.
    + constructor; try assumption; [now constructor|auto|now split|intros ? ? ? []].
    + exists []. rewrite app_nil_r. split; [reflexivity|]. intros k e _. cbn. lia.
  - cbn [map fst] in ND. apply NoDup_cons_iff in ND. destruct ND as [NI ND].
    destruct (H j c (or_introl eq_refl)) as [Cj Bj]. destruct (bound_of g (i_u s) j (bmul d c)) as [x|] eqn:Bx; [|congruence]. clear Bj.
    cbn [fix_entry]. rewrite Bx. cbn [unwrap pbind]. fold (settle (i_u s) j (bmul d c)).
    destruct (settle_ok (i_u s) j (bmul d c) x A Bx) as ([S1 S2 S3 S4 S5] & A0 & B0 & P0 & _). set (u0 := settle (i_u s) j (bmul d c)) in *. set (d' := bmul d c) in *.
    destruct (update_bound g u0 j (bnot d') x) as [u1 ch] eqn:UB.
    pose proof (update_bound_ok g u0 j (bnot d') x A0) as UO. rewrite UB in UO. destruct UO as ([W1 W2 W3 W4 W5] & A1 & CH & B1 & P1 & UA).
    assert (BB : forall k e, bound_of g u1 k e = if is_at k e j (bnot d') then Some (tighten (bnot d') (bound_of g (i_u s) j (bnot d')) x) else bound_of g (i_u s) k e).
    { intros k e. rewrite B1, !B0. reflexivity. }
    assert (PP : forall k e, pbound g u1 k e = if is_at k e j (bnot d') then Some (tighten (bnot d') (bound_of g (i_u s) j (bnot d')) x) else if is_at k e j d' then Some x else pbound g (i_u s) k e).
    { intros k e. rewrite P1, B0, P0. reflexivity. }
    set (todo1 := match ch with NewBound => todo ++ [(j, bnot d')] | _ => todo end). set (s1 := push_sub (with_u s u1) j).
    assert (TD : exists m1, todo1 = todo ++ m1 /\ forall k e, cc s k <> 0%nat -> missing g rows s k e = (missing g rows s1 k e + total s m1 k e)%nat).
    { rewrite B0 in CH. unfold change_of in CH. destruct (bound_of g (i_u s) j (bnot d')) as [o|] eqn:Bo.
      - exists []. split; [unfold todo1; rewrite app_nil_r; rewrite CH; destruct (tighter (bnot d') x o); reflexivity|].
        intros k e _. cbn [total map list_sum]. change (list_sum []) with 0%nat. rewrite Nat.add_0_r. unfold missing. cbn [s1 push_sub with_q with_u i_u i_c]. f_equal. apply filter_ext. intros [k' c']. unfold lacks_bound. cbn [fst snd].
        rewrite BB. destruct (is_at_spec k' (bmul e c') j (bnot d')) as [[-> ->]|N]; [now rewrite Bo|reflexivity].
      - exists [(j, bnot d')]. split; [unfold todo1; now rewrite CH|].
        intros k e Ck. unfold total. cbn [map list_sum fold_right]. rewrite Nat.add_0_r.
        apply (missing_less g rows M s s1 j (bnot d')); try assumption; [reflexivity|].
        intros k' e'. cbn [s1 push_sub with_q with_u i_u]. rewrite BB. destruct (is_at k' e' j (bnot d')); [split; [discriminate|intros [_ X]; discriminate]|tauto]. }
    destruct TD as (m1 & TD1 & TD2).
    eapply pspec_impl; [apply (IH s1 todo1 ND A1)| |auto|auto].
    + intros k e Hk. destruct (H k e (or_intror Hk)) as [Ck Bk]. split; [exact Ck|]. cbn [s1 push_sub with_q with_u i_u]. rewrite BB.
      destruct (is_at k (bmul d e) j (bnot d')); [discriminate|assumption].
    + cbn beta. intros [s' todo'] (E1 & E2 & E3 & E4 & E5 & E6 & FA & more & E7 & E8). cbn [s1 push_sub with_q with_u i_u i_c i_act i_q q_sub q_bound q_slack q_act] in *.
      do 5 (split; [assumption|]). split; [|split].
      * intros k. rewrite E6. cbn [In map fst]. tauto.
      * destruct FA as [[F1 F2 F3 F4 F5] FB FAC FC FD]. constructor.
        -- constructor; congruence.
        -- assumption.
        -- intros k e y Y. apply FAC in Y. rewrite UA in Y. destruct (is_at k e j (bnot d')); [discriminate|]. now apply settle_acts in Y.
        -- intros k e N. cbn [map fst In] in N. destruct (FC k e) as [C1 C2]; [tauto|]. rewrite C1, C2, BB, PP.
           destruct (is_at_spec k e j (bnot d')) as [[-> _]|_]; [exfalso; tauto|]. destruct (is_at_spec k e j d') as [[-> _]|_]; [exfalso; tauto|now split].
        -- intros k e y [EQ|Hk] By.
           ++ injection EQ as <- <-. fold d' in By. fold d'. assert (y = x) by congruence. subst y.
              destruct (FC j d' NI) as [C1 C2]. destruct (FC j (bnot d') NI) as [C3 C4]. rewrite C1, C2, C3, C4, !BB, !PP.
              destruct (is_at_spec j d' j (bnot d')) as [[_ EE]|_]; [exfalso; symmetry in EE; now apply bnot_neq in EE|].
              destruct (is_at_spec j (bnot d') j (bnot d')) as [_|NN]; [|exfalso; apply NN; now split].
              destruct (is_at_spec j d' j d') as [_|NN]; [|exfalso; apply NN; now split]. repeat split; assumption.
           ++ assert (Dk : k <> j) by (intros ->; apply NI; now apply (in_map fst) in Hk).
              assert (OT : forall e', bound_of g u1 k e' = bound_of g (i_u s) k e') by (intros e'; rewrite BB; destruct (is_at_spec k e' j (bnot d')) as [[EE _]|_]; [congruence|reflexivity]).
              specialize (FD k e y Hk). rewrite !OT in FD. now apply FD.
      * exists (m1 ++ more). split; [now rewrite E7, TD1, app_assoc|]. intros k e Ck. rewrite (TD2 k e Ck).
        assert (X : missing g rows s1 k e = (missing g rows s' k e + total s more k e)%nat) by exact (E8 k e Ck).
        rewrite X. unfold total. rewrite map_app, list_sum_app. lia.
Qed.

Lemma lower_all_spec : forall todo s, length (c_act (i_c s)) = m -> (forall k e, (total s todo k e <= ca s k e)%nat) ->
  pspec (foldP (fun s '(j, d) => update_activity_counters g s j d) todo s) (fun s' => same_rest s s' /\ i_act s' = i_act s /\ q_sub (i_q s') = q_sub (i_q s) /\
     length (c_act (i_c s')) = m /\ (forall k e, ca s' k e = (ca s k e - total s todo k e)%nat) /\
     (forall k e, In (k, e) (q_act (i_q s')) -> In (k, e) (q_act (i_q s)) \/ (ca s' k e <= 1)%nat)) (fun _ => False) False.
Proof.
  induction todo as [|[j d] todo IH]; intros s L H; cbn [foldP].
  - cbn [pspec]. split; [apply same_rest_refl|]. repeat split; auto. intros k e. cbn. lia.
  - assert (TT : forall k e, total s ((j, d) :: todo) k e = (hit (active_column g (i_c s) j) d k e + total s todo k e)%nat) by reflexivity.
    eapply pspec_bind; [eapply pspec_impl; [apply (lower_counters_spec g d (active_column g (i_c s) j) s L)|intros a X; exact X|intros ? []|auto]|].
    + intros i c Hi. apply active_column_In in Hi. destruct Hi as [Hi _]. now apply (mo_lt _ _ _ _ _ M) in Hi.
    + intros k e. specialize (H k e). rewrite TT in H. lia.
    + cbn beta. intros s1 (R & A1 & A2 & A3 & A4 & A5).
      assert (TE : forall k e, total s1 todo k e = total s todo k e).
      { intros k e. unfold total, active_column, con_active. now rewrite (sr_con _ _ R). }
      eapply pspec_impl; [apply (IH s1 A3)| |auto|auto].
      * intros k e. rewrite TE, A4. specialize (H k e). rewrite TT in H. lia.
      * cbn beta. intros s2 (R2 & B1 & B2 & B3 & B4 & B5). split; [exact (same_rest_trans _ _ _ R R2)|]. repeat split; try congruence.
        -- intros k e. rewrite B4, A4, TT, TE. lia.
        -- intros k e X. apply B5 in X. destruct X as [X|X]; [|now right]. apply A5 in X. destruct X as [X|X]; [now left|]. right. rewrite B4. lia.
Qed.

(** ** The whole row *)
Lemma set_to_bound_spec s i d a : tidy nobody s -> implied (view_of s) -> domains g s -> cc s i <> 0%nat -> ca s i d = 0%nat ->
  activity_sum g (i_u s) d (active_row rows (i_c s) i) = Go a ->
  (forall x, feas (view_of s) x -> combination (active_row rows (i_c s) i) x = a) ->
  pspec (set_to_bound g rows s i d) (fun s' => @kept g rows Cl Kn s s' /\ domains g s' /\ i_u s' = i_u s' /\
      same_but_bounds (i_u s) (i_u s') /\ forall x, (forall j, cv s j <> 0%nat -> pwithin g (i_u s') j (x j)) -> combination (active_row rows (i_c s) i) x = a) (fun _ => False) False.
Proof.
  intros T I D Ci C0 AS EQ. unfold set_to_bound.
  set (L := active_row rows (i_c s) i) in *. pose proof (active_row_nd g rows M s i) as NDL. fold L in NDL.
  assert (HL : forall j c, In (j, c) L -> cv s j <> 0%nat /\ bound_of g (i_u s) j (bmul d c) <> None).
  { intros j c Hj. split; [now apply active_row_In in Hj|]. now apply (none_missing g rows s i d T Ci C0). }
  assert (NZ : forall j c, In (j, c) L -> c <> 0) by (intros j c Hj; apply active_row_In in Hj; destruct Hj as [Hj _]; apply (mo_in _ _ M) in Hj; now apply (mo_nz _ _ M) in Hj).
  eapply pspec_bind; [eapply pspec_impl; [apply (fix_entries_spec d L s [] NDL (td_apart _ _ _ _ T) HL)|intros r X; exact X|intros ? []|auto]|].
  cbn beta. intros [s1 todo] (E1 & E2 & E3 & E4 & E5 & E6 & FA & more & E7 & E8). cbn [fst snd app] in *. subst more.
  pose proof (td_acts _ _ _ _ T) as [O1 O2 O3 O4 O5].
  assert (TE : forall k e, total s1 todo k e = total s todo k e) by (intros; unfold total; now rewrite E1).
  assert (CA1 : forall k e, ca s1 k e = ca s k e) by (intros; unfold ca; now rewrite E1).
  assert (T0 : forall k e, cc s k = 0%nat -> total s todo k e = 0%nat).
  { intros k e Hk. unfold total. clear -Hk. induction todo as [|[j d'] t IH]; [reflexivity|]. cbn [map list_sum fold_right]. fold (list_sum (map (fun '(j, d) => hit (active_column g (i_c s) j) d k e) t)). rewrite IH, Nat.add_0_r. unfold hit.
    rewrite (no_entry (active_column g (i_c s) j) k (fun c => bdir_eqb e (bmul d' c))); [reflexivity|]. intros X. rewrite active_column_fst in X. apply alive_In in X. now destruct X. }
  eapply pspec_impl; [apply (lower_all_spec todo s1)| |auto|auto].
  - now rewrite E1.
  - intros k e. rewrite TE, CA1. destruct (Nat.eq_dec (cc s k) 0) as [Z|Z]; [rewrite (T0 k e Z); lia|]. rewrite (O3 k e Z), (E8 k e Z). lia.
  - cbn beta. intros s2 ([R1 R2 R3 R4 R5] & A1 & A2 & A3 & A4 & A5).
    destruct FA as [SB AP AC OT TH]. pose proof SB as [B1 B2 B3 B4 B5].
    assert (CV : forall k, cv s2 k = cv s k) by (intros; unfold cv; now rewrite R2, E1).
    assert (CC : forall k, cc s2 k = cc s k) by (intros; unfold cc; now rewrite R3, E1).
    assert (CA : forall k e, ca s2 k e = (ca s k e - total s todo k e)%nat) by (intros; now rewrite A4, TE, CA1).
    assert (TY : forall k, type_of g (i_u s2) k = type_of g (i_u s) k) by (intros; rewrite R1; unfold type_of; now rewrite B2).
    assert (BB : forall k, b_of g (i_u s2) k = b_of g (i_u s) k) by (intros; rewrite R1; unfold b_of; now rewrite B1).
    assert (VA : forall k, var_active (i_c s2) k = var_active (i_c s) k) by (intros; rewrite !var_active_cv; now rewrite CV).
    assert (OV : forall k, on_var (view_of s2) k = on_var (view_of s) k) by exact VA.
    assert (OR : forall k, on_row (view_of s2) k = on_row (view_of s) k) by (intros; cbn; rewrite !con_active_cc; now rewrite CC).
    assert (RW : forall k, active_row rows (i_c s2) k = active_row rows (i_c s) k) by (intros k; apply only_ext; intros; apply VA).
    (* a variable of the row: its value is its bound *)
    assert (IN : forall k, In k (map fst L) -> exists c x, In (k, c) L /\ bound_of g (i_u s) k (bmul d c) = Some x).
    { intros k Hk. apply in_map_iff in Hk. destruct Hk as ([k' c] & E & Hk). cbn in E. subst k'. destruct (HL k c Hk) as [_ X]. destruct (bound_of g (i_u s) k (bmul d c)) as [x|] eqn:B; [|congruence]. now exists c, x. }
    assert (DIR : forall (e e' : bdir), e = e' \/ e = bnot e') by (intros [|] [|]; auto).
    assert (AB : forall x, feas (view_of s) x -> at_bound g (i_u s) d L x).
    { intros x F. apply (activity_ok g (i_u s) d L a x AS); [now apply row_within|now apply EQ]. }
    assert (PW : forall k c x v, In (k, c) L -> bound_of g (i_u s) k (bmul d c) = Some x -> (pwithin g (i_u s2) k v <-> v = x /\ within g (i_u s) k v)).
    { intros k c x v Hk Bx. destruct (TH k c x Hk Bx) as (Q1 & Q2 & Q3 & Q4). rewrite R1. split.
      - intros P. pose proof (P _ _ Q2) as P2. pose proof (P _ _ Q4) as P4. apply tighten_holds in P4. destruct P4 as [P4 P5].
        assert (EV : v = x) by (destruct (bmul d c); cbn in *; qlra). split; [assumption|]. intros e. destruct (DIR e (bmul d c)) as [->| ->]; [|exact P4].
        intros y Y. assert (y = x) by congruence. subst y. rewrite EV. apply bound_holds_refl.
      - intros [-> W] e y Y. destruct (DIR e (bmul d c)) as [->| ->].
        + assert (y = x) by congruence. subst y. apply bound_holds_refl.
        + rewrite Q4 in Y. injection Y as <-. apply tighten_holds. split; [apply W|apply bound_holds_refl]. }
    assert (WW : forall k v, In k (map fst L) -> (within g (i_u s2) k v <-> pwithin g (i_u s2) k v)).
    { intros k v Hk. destruct (IN k Hk) as (c & x & Hc & Bx). destruct (TH k c x Hc Bx) as (Q1 & Q2 & Q3 & Q4). 
      assert (EE : forall e, bound_of g (i_u s2) k e = pbound g (i_u s2) k e) by (intros e; rewrite R1; destruct (DIR e (bmul d c)) as [->| ->]; congruence).
      split; intros X e; [rewrite <- EE|rewrite EE]; apply X. }
    assert (BK : forall Dn x, feas (cut Dn (view_of s2)) x -> feas (cut Dn (view_of s)) x).
    { intros Dn x [F1 F2]. split.
        + intros k Hk. specialize (F1 k). cbn [cut on_var] in F1. change (var_active (i_c s2) k) with (on_var (view_of s2) k) in F1. rewrite OV in F1. specialize (F1 Hk). destruct (in_dec Nat.eq_dec k (map fst L)) as [X|X].
          * destruct (IN k X) as (c & y & Hc & By). apply (PW k c y (x k) Hc By) in F1. apply within_pwithin; [apply (td_tight _ _ _ _ T)|apply F1].
          * intros e. specialize (F1 e). cbn [cut view_of upds] in F1. rewrite R1, (proj2 (OT k e X)) in F1. exact F1.
        + intros k Hk. apply cut_row in Hk. destruct Hk as [Hk Dk]. specialize (F2 k). rewrite cut_row, OR in F2. specialize (F2 (conj Hk Dk)). cbn [cut view_of upds on_var] in F2. rewrite TY, BB in F2. change (only (var_active (i_c s2)) (row k)) with (active_row rows (i_c s2) k) in F2. rewrite RW in F2. exact F2. }
    assert (FE : forall x, feas (view_of s) x <-> feas (view_of s2) x).
    { intros x. split.
      - intros F. pose proof F as [F1 F2]. split.
        + intros k Hk. rewrite OV in Hk. destruct (in_dec Nat.eq_dec k (map fst L)) as [X|X].
          * destruct (IN k X) as (c & y & Hc & By). apply (PW k c y (x k) Hc By). split; [|now apply (I x F)]. pose proof (AB x F k c Hc) as Z. congruence.
          * intros e. cbn [view_of upds]. rewrite R1, (proj2 (OT k e X)). now apply (F1 k).
        + intros k Hk. rewrite OR in Hk. cbn [view_of upds on_var]. rewrite TY, BB. change (only (var_active (i_c s2)) (row k)) with (active_row rows (i_c s2) k). rewrite RW. now apply (F2 k).
      - intros F. pose proof (BK (fun _ => true) x (feas_cut g rows _ _ x F)) as [F1 F2]. split; [exact F1|]. intros k Hk. apply (F2 k). apply cut_row. now split. }
    split; [|split; [|split; [reflexivity|split]]].
    + constructor.
      * constructor.
        -- rewrite R2, E1. apply (td_nv _ _ _ _ T).
        -- rewrite R3, E1. apply (td_nc _ _ _ _ T).
        -- pose proof (td_bip _ _ _ _ T) as [H1 H2]. unfold bip, alive in *. split.
           ++ intros k. rewrite CV. intros H. rewrite H1 by assumption. f_equal. apply filter_ext. intros x. now rewrite CC.
           ++ intros k. rewrite CC. intros H. rewrite H2 by assumption. f_equal. apply filter_ext. intros x. now rewrite CV.
        -- rewrite R1, B4. apply (td_rem_nd _ _ _ _ T).
        -- intros k. rewrite R1, B4, CV. apply (td_rem _ _ _ _ T).
        -- rewrite R1, B5. apply (td_gone_nd _ _ _ _ T).
        -- intros k. rewrite R1, B5, CC. apply (td_gone _ _ _ _ T).
        -- intros k. rewrite CC, R4, E3. apply (td_bq _ _ _ _ T).
        -- intros k. rewrite CC, R4, E3. apply (td_bq' _ _ _ _ T).
        -- intros k. rewrite CV, R5, E4. apply (td_sq _ _ _ _ T).
        -- intros k H. rewrite A2 in H. rewrite R1. apply E6 in H. destruct (in_dec Nat.eq_dec k (map fst L)) as [X|X].
           ++ destruct (IN k X) as (c & x & Hc & Bx). destruct (TH k c x Hc Bx) as (Q1 & _ & Q3 & _).
              pose proof (tighten_holds (bnot (bmul d c)) (bound_of g (i_u s) k (bnot (bmul d c))) x (tighten (bnot (bmul d c)) (bound_of g (i_u s) k (bnot (bmul d c))) x)) as [TT _].
              destruct (TT (bound_holds_refl _ _)) as [_ TT']. unfold crossed. destruct (bmul d c); cbn [bnot] in *; (eexists; eexists; split; [eassumption|split; [eassumption|]]); cbn in TT'; qlra.
           ++ destruct H as [H|H]; [|contradiction]. apply (td_sub _ _ _ _ T) in H. destruct H as (l & h & H1 & H2 & H3). exists l, h. rewrite (proj1 (OT k Lower X)), (proj1 (OT k Upper X)). now repeat split.
        -- now rewrite R1.
        -- intros k e b v Bb Pv. rewrite R1 in Bb, Pv. destruct (in_dec Nat.eq_dec k (map fst L)) as [X|X].
           ++ destruct (IN k X) as (c & x & Hc & Bx). destruct (TH k c x Hc Bx) as (Q1 & Q2 & Q3 & Q4).
              assert (b = v) by (destruct (DIR e (bmul d c)) as [->| ->]; congruence). subst v. apply bound_holds_refl.
           ++ rewrite (proj1 (OT k e X)) in Bb. rewrite (proj2 (OT k e X)) in Pv. now apply (td_tight _ _ _ _ T k e).
        -- intros k r. rewrite CC, TY. apply (td_range _ _ _ _ T).
        -- assert (MI : forall k e, cc s k <> 0%nat -> missing g rows s k e = (missing g rows s2 k e + total s todo k e)%nat).
           { intros k e Ck. rewrite (E8 k e Ck). f_equal. unfold missing. rewrite RW, R1. now rewrite E1. }
           constructor.
           ++ assumption.
           ++ now rewrite A1, E2.
           ++ intros k e Ck. rewrite CC in Ck. rewrite CA, (O3 k e Ck), (MI k e Ck). lia.
           ++ intros k e Ck K. rewrite CC in Ck. rewrite CA. rewrite (O4 k e Ck); [reflexivity|]. unfold cache in *. now rewrite A1, E2 in K.
           ++ intros k e H Ck. rewrite CC in Ck. apply A5 in H. destruct H as [H|H]; [|exact H]. rewrite E5 in H. rewrite CA. specialize (O5 k e H Ck). lia.
      * intros x F k Hk. apply FE in F. rewrite OV in Hk. destruct (in_dec Nat.eq_dec k (map fst L)) as [X|X].
        -- apply WW; [assumption|]. apply (proj1 (FE x) F). now rewrite OV.
        -- intros e. cbn [view_of upds]. rewrite R1, (proj1 (OT k e X)). now apply (I x F k).
      * exact FE.
      * split; [now rewrite R2, E1|now rewrite R3, E1].
      * now rewrite R1.
      * now rewrite R1.
      * intros Dn _. apply BK.
      * intros k e v _ X. rewrite R1 in X. left. now apply AC.
    + intros k Ck. rewrite CV in Ck. specialize (D k Ck). destruct (in_dec Nat.eq_dec k (map fst L)) as [X|X].
      * destruct (IN k X) as (c & x & Hc & Bx). destruct (TH k c x Hc Bx) as (Q1 & Q2 & Q3 & Q4).
        intros N. apply (feasible_value_none g (i_u s2) k x N). apply WW; [assumption|]. apply (PW k c x x Hc Bx). split; [reflexivity|].
        destruct (feasible_value g (i_u s) k) as [v|] eqn:Fv; [|congruence]. apply feasible_value_some in Fv. intros e y Y. destruct (DIR e (bmul d c)) as [->| ->].
        -- assert (y = x) by congruence. subst y. apply bound_holds_refl.
        -- pose proof (Fv _ _ Y) as V1. pose proof (Fv _ _ Bx) as V2. destruct (bmul d c); cbn in *; qlra.
      * unfold feasible_value in *. rewrite R1, (proj1 (OT k Lower X)), (proj1 (OT k Upper X)). exact D.
    + now rewrite R1.
    + intros x W. rewrite (activity_at_bound g (i_u s) d L 0 a x); [ring| |exact AS]. intros j c Hj. destruct (HL j c Hj) as [Cj Bj].
      destruct (bound_of g (i_u s) j (bmul d c)) as [y|] eqn:By; [|congruence]. f_equal. symmetry. apply (PW j c y (x j) Hj By). now apply W.
Qed.
End Set_.
