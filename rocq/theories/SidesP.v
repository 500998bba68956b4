(** * Presolving programs of limits or of demands is safe

    Bounds change on one side only, no variable gets a single value, and no row can be removed on account of a
    bound that it gave itself. *)
From Verif Require Import SpecGeneral SpecSides SparseP LinAlg KindP InitP.
From Verif Require Export PreAny SafeRun.
Local Open Scope Qc_scope.

Lemma bmul_pos d c : 0 < c -> bmul d c = d.
Proof. intros H. unfold bmul. destruct (qneg c) eqn:E; [|reflexivity]. unfold qneg in E. qb. exfalso. qlra. Qed.
Lemma combination_less l (f h : nat -> Qc) : (forall j c, In (j, c) l -> c * h j <= c * f j) -> combination l h <= combination l f.
Proof.
  induction l as [|[j c] l IH]; intros H; cbn; [qlra|]. specialize (IH (fun j c I => H j c (or_intror I))). pose proof (H j c (or_introl eq_refl)). qlra.
Qed.
Lemma combination_other l (f h : nat -> Qc) j c : NoDup (map fst l) -> In (j, c) l -> (forall k e, In (k, e) l -> k <> j -> e * h k <= e * f k) ->
  combination l h - c * h j <= combination l f - c * f j.
Proof.
  induction l as [|[k e] l IH]; intros ND I H; [contradiction|]. cbn [map fst] in ND. apply NoDup_cons_iff in ND. destruct ND as [NI ND]. cbn [combination]. destruct I as [E|I].
  - injection E as -> ->. assert (combination l h <= combination l f); [|qlra]. apply combination_less. intros k e I. apply H; [now right|]. intros ->. apply NI. now apply (in_map fst) in I.
  - specialize (IH ND I (fun k e J => H k e (or_intror J))). assert (e * h k <= e * f k); [|qlra]. apply H; [now left|]. intros ->. apply NI. now apply (in_map fst) in I.
Qed.
Lemma combination_two l (f h : nat -> Qc) j c : NoDup (map fst l) -> In (j, c) l -> (2 <= length l)%nat -> (forall k e, In (k, e) l -> k <> j -> e * h k < e * f k) ->
  combination l h - c * h j < combination l f - c * f j.
Proof.
  induction l as [|[k e] l IH]; intros ND I L H; [contradiction|]. cbn [map fst] in ND. apply NoDup_cons_iff in ND. destruct ND as [NI ND]. cbn [combination]. destruct I as [E|I].
  - injection E as -> ->. destruct l as [|[k e] l]; [cbn in L; lia|]. cbn [combination]. cbn [map fst In] in NI.
    assert (e * h k < e * f k) by (apply H; [right; now left|intros ->; apply NI; now left]).
    assert (combination l h <= combination l f); [|qlra]. apply combination_less. intros k' e' I. apply Qclt_le_weak. apply H; [right; now right|]. intros ->. apply NI. right. now apply (in_map fst) in I.
  - assert (K : k <> j) by (intros ->; apply NI; now apply (in_map fst) in I). pose proof (H k e (or_introl eq_refl) K).
    pose proof (combination_other l f h j c ND I (fun k e J N => Qclt_le_weak _ _ (H k e (or_intror J) N))). qlra.
Qed.
Lemma combination_changed l (f h : nat -> Qc) j c : NoDup (map fst l) -> In (j, c) l -> (forall k, k <> j -> f k = h k) -> combination l f = combination l h + (f j - h j) * c.
Proof.
  intros ND I E. pose proof (combination_other l f h j c ND I) as A. pose proof (combination_other l h f j c ND I) as B.
  assert (forall k e, In (k, e) l -> k <> j -> e * h k <= e * f k) as X by (intros k e _ N; rewrite (E k N); apply Qcle_refl).
  assert (forall k e, In (k, e) l -> k <> j -> e * f k <= e * h k) as Y by (intros k e _ N; rewrite (E k N); apply Qcle_refl).
  specialize (A X). specialize (B Y). apply Qcle_antisym; qlra.
Qed.

Section Sides.
Variables (g : general) (rows : list svec).
Local Notation n := (nr_vars g).
Local Notation m := (g_rows g).
Local Notation row i := (nth i rows []).
Local Notation calm := (calm g rows).
Hypothesis M : matrix_ok g rows.
(** the side of the bounds that may change *)
Variable D : bdir.
Local Notation E := (bnot D).
Definition kind : rel := match D with Upper => Less | Lower => Greater end.
Definition past (a v : Qc) : Prop := match D with Upper => a < v | Lower => v < a end.
Definition fixed_end (j : nat) : option Qc := vbound (gvar g j) E.
Definition at_end (j : nat) : Qc := match fixed_end j with Some a => a | None => 0 end.
Hypothesis POS : forall i j c, In (j, c) (row i) -> 0 < c.
Hypothesis COST : forall j, (j < n)%nat -> v_cost (gvar g j) <> 0.
Hypothesis TYPES : forall i, (i < m)%nat -> nth i (g_types g) Equal = kind.
Hypothesis SPREAD : forall j v a, vbound (gvar g j) D = Some v -> fixed_end j = Some a -> past a v.
Hypothesis ROOM : forall i, (i < m)%nat -> (forall j c, In (j, c) (row i) -> fixed_end j <> None) -> past (combination (row i) at_end) (nthq (g_b g) i).

Lemma row_lt i j c : In (j, c) (row i) -> (i < m)%nat.
Proof using M. intros I. apply (mo_in _ _ M) in I. now apply (mo_lt g rows i j c M). Qed.
Definition bnd (u : updates) (d : bdir) (j : nat) : Qc := match bound_of g u j d with Some v => v | None => 0 end.
Lemma sum_from u d : forall l acc, (forall j c, In (j, c) l -> 0 < c) -> forall x,
  foldP (fun acc '(j, c) => let+ x := unwrap (bound_of g u j (bmul d c)) in Go (acc + c * x)) l acc = Go x <->
  (forall j c, In (j, c) l -> bound_of g u j d <> None) /\ x = acc + combination l (bnd u d).
Proof using.
  induction l as [|[j c] l IH]; intros acc P x; cbn [foldP combination].
  - split; [intros X; injection X as <-; split; [intros ? ? []|ring]|]. intros [_ ->]. f_equal. ring.
  - rewrite (bmul_pos d c) by (apply (P j); now left). destruct (bound_of g u j d) as [v|] eqn:B; cbn [unwrap pbind].
    + rewrite IH by (intros k e I; apply (P k); now right). unfold bnd at 2. rewrite B. split.
      * intros [H ->]. split; [|ring]. intros k e [X|I]; [injection X as <- <-; congruence|]. now apply (H k e).
      * intros [H ->]. split; [|ring]. intros k e I. apply (H k e). now right.
    + split; [discriminate|]. intros [H _]. exfalso. now apply (H j c (or_introl eq_refl)).
Qed.
Lemma sum_go u d i x : activity_sum g u d (row i) = Go x <-> (forall j c, In (j, c) (row i) -> bound_of g u j d <> None) /\ x = combination (row i) (bnd u d).
Proof using POS.
  unfold activity_sum. rewrite (sum_from u d (row i) 0 (fun j c I => POS i j c I)). now rewrite Qcplus_0_l.
Qed.

Record quiet (s : pindex) : Prop := mk_quiet {
  qu_types : forall i, u_types (i_u s) i = None;
  qu_b : forall i, u_b (i_u s) i = None;
  qu_end : forall j, u_bounds (i_u s) j E = None /\ u_acts (i_u s) j E = None;
  qu_past : forall j v a, bound_of g (i_u s) j D = Some v -> fixed_end j = Some a -> past a v;
  qu_full : forall i j c, cc s i <> 0%nat -> In (j, c) (row i) -> cv s j <> 0%nat;
  qu_len : length (i_act s) = m;
  qu_cache : forall i d x, cc s i <> 0%nat -> cache s i d = Some x -> activity_sum g (i_u s) d (row i) = Go x }.
Lemma end_of s j : quiet s -> bound_of g (i_u s) j E = fixed_end j.
Proof using. intros Q. unfold bound_of, fixed_end. destruct (qu_end _ Q j) as [-> ->]. reflexivity. Qed.
Lemma end_value s j : quiet s -> bnd (i_u s) E j = at_end j.
Proof using. intros Q. unfold bnd, at_end. now rewrite (end_of s j Q). Qed.
Lemma sides d : d = D \/ d = E.
Proof using. clear. destruct d, D; auto. Qed.
Lemma whole_row s i : quiet s -> cc s i <> 0%nat -> active_row rows (i_c s) i = row i.
Proof using.
  intros Q C. unfold active_row. pose proof (qu_full _ Q i) as F. induction (row i) as [|[j c] l IH]; [reflexivity|]. cbn [filter].
  assert (V : var_active (i_c s) j = true) by (apply (on_var_cv s); apply (F j c C); now left). rewrite V. f_equal. apply IH. intros k e _ I. apply (F k e C). now right.
Qed.
Lemma type_here s i : quiet s -> (i < m)%nat -> type_of g (i_u s) i = kind.
Proof using TYPES. intros Q L. unfold type_of. rewrite (qu_types _ Q). now apply TYPES. Qed.
Lemma b_here s i : quiet s -> b_of g (i_u s) i = nthq (g_b g) i.
Proof using. intros Q. unfold b_of. now rewrite (qu_b _ Q). Qed.
Lemma apart_ends u j : u_bounds u j E = None /\ u_acts u j E = None -> (forall v a, bound_of g u j D = Some v -> fixed_end j = Some a -> past a v) -> ~ crossed g u j.
Proof using.
  clear. intros [B A] P (l & h & L & H & X). assert (EE : bound_of g u j E = fixed_end j) by (unfold bound_of, fixed_end; now rewrite A, B). unfold past in P. destruct D; cbn [bnot] in *.
  - specialize (P l h L). rewrite <- EE in P. specialize (P H). qlra.
  - specialize (P h l H). rewrite <- EE in P. specialize (P L). qlra.
Qed.
Lemma never_crossed s j : quiet s -> ~ crossed g (i_u s) j.
Proof using. intros Q. apply apart_ends; [apply (qu_end _ Q)|apply (qu_past _ Q)]. Qed.

(** ** A bound changes *)
Lemma shift_exact d ch : forall l s, NoDup (map fst l) -> (forall i c, In (i, c) l -> (i < length (i_act s))%nat /\ cc s i <> 0%nat) ->
  let s' := fold_left (shift_activity d ch) l s in
  i_u s' = i_u s /\ i_c s' = i_c s /\ length (i_act s') = length (i_act s) /\
  (forall i e, ~ In i (map fst l) -> cache s' i e = cache s i e) /\
  (forall i c e, In (i, c) l -> cache s' i e = if bdir_eqb e (bmul d c) then option_map (fun x => x + ch * c) (cache s i e) else cache s i e).
Proof using.
  induction l as [|[i c] l IH]; intros s ND H; cbn [fold_left].
  - repeat split; auto. intros ? ? ? [].
  - cbn [map fst] in ND. apply NoDup_cons_iff in ND. destruct ND as [NI ND]. destruct (H i c (or_introl eq_refl)) as [Li Ci].
    set (s1 := shift_activity d ch s (i, c)).
    assert (P : i_u s1 = i_u s /\ i_c s1 = i_c s /\ length (i_act s1) = length (i_act s) /\
      forall k e, cache s1 k e = if Nat.eqb k i && bdir_eqb e (bmul d c) then option_map (fun x => x + ch * c) (cache s k e) else cache s k e).
    { unfold s1, shift_activity. rewrite con_active_cc. destruct (Nat.eqb_spec (cc s i) 0); [contradiction|]. cbn [negb].
      fold (cache s i (bmul d c)). destruct (cache s i (bmul d c)) as [x|] eqn:Ex.
      - set (t := with_act s _). destruct (push_act_spec t (i, bmul d c)) as (E1 & E2 & E3 & _). rewrite E1, E2, E3. repeat split; [cbn; now rewrite upd_length|].
        intros k e. unfold cache at 1. rewrite E3. cbn [t with_act i_act]. rewrite nth_pair_upd by assumption. rewrite side_set.
        destruct (Nat.eqb_spec k i) as [->|]; cbn [andb]; [|reflexivity]. destruct (bdir_eqb_spec e (bmul d c)) as [->|]; [now rewrite Ex|reflexivity].
      - repeat split. intros k e. destruct (Nat.eqb_spec k i) as [->|]; cbn [andb]; [|reflexivity]. destruct (bdir_eqb_spec e (bmul d c)) as [->|]; [now rewrite Ex|reflexivity]. }
    destruct P as (P1 & P2 & P3 & P4). destruct (IH s1 ND) as (R1 & R2 & R3 & R4 & R5).
    { intros k e I. rewrite P3. unfold cc. rewrite P2. apply (H k e). now right. }
    fold s1. repeat split; try congruence.
    + intros k e N. cbn [map fst In] in N. rewrite R4 by tauto. rewrite P4. destruct (Nat.eqb_spec k i) as [->|]; [exfalso; apply N; now left|reflexivity].
    + intros k c' e [X|I].
      * injection X as <- <-. rewrite R4 by assumption. rewrite P4, Nat.eqb_refl. reflexivity.
      * rewrite (R5 k c' e I). rewrite P4. destruct (Nat.eqb_spec k i) as [->|]; [exfalso; apply NI; now apply (in_map fst) in I|]. reflexivity.
Qed.
Lemma counters_cache j d s s' : update_activity_counters g s j d = Go s' -> i_u s' = i_u s /\ i_act s' = i_act s /\ c_var (i_c s') = c_var (i_c s) /\ c_con (i_c s') = c_con (i_c s).
Proof using.
  unfold update_activity_counters. intros X.
  refine (let H := fold_same (lower_counter d) (fun s => (i_u s, i_act s, c_var (i_c s), c_con (i_c s))) _ _ _ _ X in _).
  - now injection H.
  Unshelve. intros t [i c] t'. unfold lower_counter. intros Y. apply pbind_go in Y. destruct Y as (t1 & Y1 & Y2). unfold dec_act in Y1. destruct (side _ _); [discriminate|]. injection Y1 as <-.
  injection Y2 as <-. destruct (Nat.leb _ 1); [|reflexivity]. match goal with |- context [push_act ?t ?e] => destruct (push_act_spec t e) as (E1 & E2 & E3 & _) end. rewrite E1, E2, E3. reflexivity.
Qed.
Lemma quiet_change s u' j new s' : quiet s -> rebound g (i_u s) u' j D new -> (forall a, fixed_end j = Some a -> past a new) ->
  (forall k, u_bounds u' k E = None /\ u_acts u' k E = None) ->
  apply_change g (with_u s u') j D (change_of D (bound_of g (i_u s) j D) new) = Go s' ->
  quiet s' /\ i_u s' = u' /\ c_var (i_c s') = c_var (i_c s) /\ c_con (i_c s') = c_con (i_c s).
Proof using M POS.
  intros Q RB PN NE X.
  assert (MV : forall k e, bound_of g u' k e = if is_at k e j D then Some (tighten D (bound_of g (i_u s) j D) new) else bound_of g (i_u s) k e) by exact (rb_moved _ _ _ _ _ _ RB).
  assert (PAST : forall k v a, bound_of g u' k D = Some v -> fixed_end k = Some a -> past a v).
  { intros k v a B F. rewrite MV in B. destruct (is_at_spec k D j D) as [[-> _]|N]; [|now apply (qu_past _ Q k)]. injection B as <-.
    unfold tighten. destruct (bound_of g (i_u s) j D) as [old|] eqn:O; [|now apply PN]. destruct (tighter D new old); [now apply PN|]. now apply (qu_past _ Q j). }
  destruct (rb_same _ _ _ _ _ _ RB) as [SB ST _ _ _].
  assert (BUILD : forall t, i_u t = u' -> c_var (i_c t) = c_var (i_c s) -> c_con (i_c t) = c_con (i_c s) -> length (i_act t) = m ->
    (forall i d x, cc s i <> 0%nat -> cache t i d = Some x -> activity_sum g u' d (row i) = Go x) -> quiet t).
  { intros t T1 T2 T3 T4 T5. constructor; try rewrite T1; try assumption.
    - intros i. rewrite ST. apply (qu_types _ Q).
    - intros i. rewrite SB. apply (qu_b _ Q).
    - unfold cc, cv. rewrite T2, T3. apply (qu_full _ Q).
    - intros i d x C. apply T5. unfold cc in *. now rewrite <- T3. }
  assert (KEPT : forall i d x, (forall c, ~ In (j, c) (row i) \/ d <> D \/ tighten D (bound_of g (i_u s) j D) new = bnd (i_u s) D j /\ bound_of g (i_u s) j D <> None) ->
    activity_sum g (i_u s) d (row i) = Go x -> activity_sum g u' d (row i) = Go x).
  { intros i d x K S. apply sum_go in S. destruct S as [S1 S2]. apply sum_go. split.
    - intros k c I. rewrite MV. destruct (is_at k d j D); [discriminate|]. now apply (S1 k c).
    - rewrite S2. apply combination_ext. intros k c I. unfold bnd at 2. rewrite MV. destruct (is_at_spec k d j D) as [[-> ->]|]; [|reflexivity].
      destruct (K c) as [K'|[K'|[K' _]]]; [contradiction|contradiction|]. now rewrite K'. }
  assert (NF : fixed_value g u' j = None).
  { destruct (fixed_value g u' j) eqn:Y; [|reflexivity]. exfalso. apply (apart_ends u' j); [apply NE|intros v a; apply PAST|]. apply fixed_crossed. congruence. }
  unfold change_of in X. destruct (bound_of g (i_u s) j D) as [old|] eqn:O.
  - destruct (tighter D new old) eqn:TI; cbn [apply_change] in X.
    + unfold after_bound_change in X. cbn [with_u i_u] in X. rewrite NF in X. unfold update_activity_bounds in X. injection X as <-. cbn [i_c with_u].
      assert (ND : NoDup (map fst (active_column g (i_c s) j))) by (apply NoDup_fst_filter, (mo_nd_col _ _ M)).
      destruct (shift_exact D (new - old) (active_column g (i_c s) j) (with_u s u') ND) as (R1 & R2 & R3 & R4 & R5).
      { intros i c I. apply active_column_In in I. destruct I as [I1 I2]. split; [|exact I2]. cbn [with_u i_act]. rewrite (qu_len _ Q). now apply (mo_lt g rows i j c M). }
      set (t := fold_left _ _ _) in *. cbn [with_u i_u i_c i_act] in *. split; [|rewrite R1, R2; repeat split].
      apply BUILD; try assumption; try (rewrite R2; reflexivity); [rewrite R3; apply (qu_len _ Q)|].
      intros i d x C K. destruct (in_dec Nat.eq_dec i (map fst (active_column g (i_c s) j))) as [I|I].
      * apply in_map_iff in I. destruct I as ([i' c] & Y & I). cbn in Y. subst i'. rewrite (R5 i c d I) in K. apply active_column_In in I. destruct I as [I _]. apply (mo_in _ _ M) in I.
        rewrite (bmul_pos D c) in K by now apply (POS i j). change (cache (with_u s u') i d) with (cache s i d) in K.
        destruct (bdir_eqb_spec d D) as [->|N].
        -- destruct (cache s i D) as [y|] eqn:CY; [|discriminate]. cbn in K. injection K as <-. apply (qu_cache _ Q i D y C) in CY. apply sum_go in CY. destruct CY as [S1 S2]. apply sum_go. split.
           ++ intros k e J. rewrite MV. destruct (is_at k D j D); [discriminate|]. now apply (S1 k e).
           ++ rewrite S2. rewrite (combination_changed (row i) (bnd u' D) (bnd (i_u s) D) j c); [|apply (mo_nd_row _ _ M)|assumption|].
              ** f_equal. unfold bnd. rewrite MV. destruct (is_at_spec j D j D) as [_|NN]; [|exfalso; now apply NN]. rewrite O. unfold tighten. now rewrite TI.
              ** intros k Nk. unfold bnd. rewrite MV. destruct (is_at_spec k D j D) as [[-> _]|_]; [contradiction|reflexivity].
        -- apply KEPT; [intros e; right; now left|]. now apply (qu_cache _ Q i d x C).
      * rewrite (R4 i d I) in K. change (cache (with_u s u') i d) with (cache s i d) in K. apply KEPT; [|now apply (qu_cache _ Q i d x C)].
        intros c. left. intros J. apply I. apply in_map_iff. exists (i, c). split; [reflexivity|]. apply active_column_In. split; [now apply (mo_in _ _ M)|assumption].
    + injection X as <-. split; [|repeat split]. apply BUILD; try reflexivity; [apply (qu_len _ Q)|]. intros i d x C K. apply KEPT; [|now apply (qu_cache _ Q i d x C)].
      intros c. right. right. split; [|discriminate]. unfold tighten, bnd. now rewrite TI, O.
  - cbn [apply_change] in X. unfold after_bound_change in X. cbn [with_u i_u] in X. rewrite NF in X. apply counters_cache in X. destruct X as (X1 & X2 & X3 & X4). cbn [with_u i_u i_c i_act] in *.
    split; [|repeat split; assumption]. apply BUILD; try assumption; [rewrite X2; apply (qu_len _ Q)|].
    intros i d x C K. unfold cache in K. rewrite X2 in K. fold (cache s i d) in K. apply (qu_cache _ Q i d x C) in K. apply KEPT; [|exact K].
    intros c. destruct (bdir_eqb_spec d D) as [->|N]; [|right; now left]. left. intros J. apply sum_go in K. destruct K as [K _]. now apply (K j c J).
Qed.
Lemma update_bound_other u j d new u' ch k e : update_bound g u j d new = (u', ch) -> is_at k e j d = false -> u_bounds u' k e = u_bounds u k e /\ u_acts u' k e = u_acts u k e.
Proof using.
  clear. unfold update_bound, compare_update, is_at. intros X N.
  destruct (u_bounds u j d), (u_acts u j d), (vbound (gvar g j) d); try (destruct (match d with Lower => _ | Upper => _ end)); injection X as <- <-; cbn; unfold put2; rewrite ?N; auto.
Qed.
Lemma update_activity_other u j d new u' ch k e : update_activity_bound g u j d new = (u', ch) -> is_at k e j d = false -> u_bounds u' k e = u_bounds u k e /\ u_acts u' k e = u_acts u k e.
Proof using.
  clear. unfold update_activity_bound, compare_update, is_at. intros X N.
  destruct (u_acts u j d), (u_bounds u j d), (vbound (gvar g j) d); try (destruct (match d with Lower => _ | Upper => _ end)); injection X as <- <-; cbn; unfold put2; rewrite ?N; auto.
Qed.
Lemma other_side k j : is_at k E j D = false.
Proof using. clear. destruct (is_at_spec k E j D) as [[_ X]|]; [|reflexivity]. destruct D; discriminate. Qed.
Lemma past_new a b c x : 0 < c -> past a b -> past x ((b - (a - c * x)) / c).
Proof using.
  clear. intros P H. assert (K : c * ((b - (a - c * x)) / c) = b - (a - c * x)) by (field; intros ->; qlra). set (v := (b - (a - c * x)) / c) in *. clearbody v. unfold past in *. destruct D.
  - apply Qcnot_le_lt. intros L. assert (c * x <= c * v) by (rewrite !(Qcmult_comm c); apply Qcmult_le_compat_r; [assumption|qlra]). qlra.
  - apply Qcnot_le_lt. intros L. assert (c * v <= c * x) by (rewrite !(Qcmult_comm c); apply Qcmult_le_compat_r; [assumption|qlra]). qlra.
Qed.
Lemma quiet_same s s' : quiet s -> u_types (i_u s') = u_types (i_u s) -> u_b (i_u s') = u_b (i_u s) -> u_bounds (i_u s') = u_bounds (i_u s) -> u_acts (i_u s') = u_acts (i_u s) ->
  i_act s' = i_act s -> (forall i, cc s' i <> 0%nat -> cc s i <> 0%nat) -> (forall i j c, cc s' i <> 0%nat -> In (j, c) (row i) -> cv s' j <> 0%nat) -> quiet s'.
Proof using.
  intros Q H1 H2 H3 H4 H5 H6 H7. assert (B : forall k d, bound_of g (i_u s') k d = bound_of g (i_u s) k d) by (intros; unfold bound_of; now rewrite H3, H4).
  constructor; try assumption.
  - intros i. rewrite H1. apply (qu_types _ Q).
  - intros i. rewrite H2. apply (qu_b _ Q).
  - intros j. rewrite H3, H4. apply (qu_end _ Q).
  - intros j v a. rewrite B. apply (qu_past _ Q).
  - rewrite H5. apply (qu_len _ Q).
  - intros i d x C K. unfold cache in K. rewrite H5 in K. rewrite <- (qu_cache _ Q i d x (H6 i C) K). unfold activity_sum. apply foldP_ext. intros acc [j c] _. now rewrite B.
Qed.
Lemma quiet_drop s i s' : calm s -> quiet s -> cc s i <> 0%nat -> remove_constraint_values g rows s i = Go s' ->
  quiet (mark_constraint s' i) /\ u_acts (i_u s') = u_acts (i_u s) /\ forall k, cv s' k <> 0%nat -> cv s k <> 0%nat.
Proof using M.
  intros (T & OP & _) Q Ci X. unfold remove_constraint_values in X.
  change (foldP _ (active_row rows (i_c s) i) s) with (foldP (drop_entry g nobody i) (active_row rows (i_c s) i) s) in X.
  assert (LV : forall k, In k (map fst (active_row rows (i_c s) i)) -> cv s k <> 0%nat).
  { intros k Hk. rewrite active_row_fst in Hk. now apply alive_In in Hk. }
  pose proof (drop_entries_spec g nobody i (active_row rows (i_c s) i) s) as P. rewrite X in P. cbn [pspec] in P.
  destruct P as (A1 & A2 & A3 & A4 & A5 & A6 & A7 & A8 & A9 & A10 & sol & B1 & B2 & B3).
  - apply active_row_nd with (g := g). exact M.
  - exact LV.
  - rewrite <- (bk_row _ _ _ _ _ T Ci). lia.
  - intros k Hk. now apply opened_value.
  - assert (CCi : cc s' i = 0%nat) by (rewrite A5, Nat.eqb_refl, (bk_row _ _ _ _ _ T Ci); lia).
    assert (CCs : forall k, k <> i -> cc s' k = cc s k) by (intros k Hk; rewrite A5; destruct (Nat.eqb_spec k i); [contradiction|lia]).
    split; [|split].
    + apply (quiet_same s); try assumption; try (unfold mark_constraint; cbn [i_u with_u]; rewrite B1; reflexivity).
      * intros k H. change (cc s' k <> 0%nat) in H. rewrite A5 in H. lia.
      * intros k j c H I. change (cc s' k <> 0%nat) in H. change (cv s' j <> 0%nat). destruct (Nat.eq_dec k i) as [->|N]; [contradiction|].
        pose proof H as H'. rewrite CCs in H' by assumption. apply (lost_other g rows M s s' i nobody T Ci A6 CCi CCs k j c N H' I). now apply (qu_full _ Q k j c).
    + rewrite B1. reflexivity.
    + intros k H. rewrite A6 in H. lia.
Qed.
Lemma bounds_kind b c : 0 < c -> bounds_from b kind c = [(D, b / c)].
Proof using. clear. intros P. unfold kind, bounds_from. destruct D; now rewrite (bmul_pos _ c P). Qed.
Lemma queue_variable_same s j s' : queue_variable g s j = Go s' -> u_types (i_u s') = u_types (i_u s) /\ u_b (i_u s') = u_b (i_u s) /\ u_bounds (i_u s') = u_bounds (i_u s) /\ u_acts (i_u s') = u_acts (i_u s) /\ i_act s' = i_act s /\ i_c s' = i_c s.
Proof using.
  clear. unfold queue_variable. destruct (nth j _ _) as [|[|k]].
  - destruct (qzero _); intros X; apply pbind_go in X; destruct X as (v & _ & X); injection X as <-; repeat split.
  - intros X. injection X as <-. destruct (qzero _); repeat split.
  - intros X. injection X as <-. repeat split.
Qed.
Lemma quiet_bound s i s' : calm s -> quiet s -> cc s i = 1%nat -> bound_constraint_rule g rows s i = Go s' ->
  quiet s' /\ (forall k v, u_acts (i_u s') k D = Some v -> u_acts (i_u s) k D = Some v) /\ forall k, cv s' k <> 0%nat -> cv s k <> 0%nat.
Proof using M POS TYPES ROOM.
  intros (T & OP & _) Q C1 X. assert (Ci : cc s i <> 0%nat) by lia. pose proof (bk_cc _ _ _ _ _ T Ci) as Li.
  pose proof (bk_row _ _ _ _ _ T Ci) as LR. pose proof (whole_row s i Q Ci) as WR. unfold bound_constraint_rule in X. rewrite WR in *. rewrite C1 in LR.
  destruct (row i) as [|[j c] [|]] eqn:RI; cbn [length] in LR; try discriminate. cbn [hd_error unwrap pbind] in X.
  assert (I : In (j, c) (row i)) by (rewrite RI; now left). pose proof (POS i j c I) as Pc. pose proof (qu_full _ Q i j c Ci I) as Vj.
  rewrite (type_here s i Q Li), (b_here s i Q), bounds_kind in X by assumption. rewrite dec_var_ok in X by exact Vj. cbn [pbind] in X. rewrite dec_con_ok in X by exact Ci. cbn [pbind] in X.
  set (s3 := mark_constraint _ i) in X.
  assert (CV : forall k, cv s3 k = (cv s k - if Nat.eqb k j then 1 else 0)%nat) by (intros; apply nth_lowered).
  assert (CC : forall k, cc s3 k = (cc s k - if Nat.eqb k i then 1 else 0)%nat) by (intros; apply nth_lowered).
  assert (Q3 : quiet s3).
  { apply (quiet_same s); try assumption; try reflexivity.
    - intros k H. rewrite CC in H. lia.
    - intros k j' c' H J. destruct (Nat.eq_dec k i) as [->|N]; [rewrite CC, Nat.eqb_refl in H; lia|].
      assert (CCs : forall k, k <> i -> cc s3 k = cc s k) by (intros k' Hk; rewrite CC; destruct (Nat.eqb_spec k' i); [contradiction|lia]).
      pose proof H as H'. rewrite CCs in H' by assumption.
      apply (lost_other g rows M s s3 i nobody T Ci) with (i' := k) (c := c'); try assumption.
      + intros k'. rewrite CV, WR. cbn [map fst memb existsb]. now rewrite orb_false_r.
      + rewrite CC, Nat.eqb_refl. lia.
      + now apply (qu_full _ Q k j' c'). }
  cbn [foldP] in X. destruct (update_bound g (i_u s3) j D (nthq (g_b g) i / c)) as [u' ch] eqn:UB.
  assert (AP : apart (i_u s3)) by apply (bk_apart _ _ _ _ T). destruct (update_bound_rebound g _ _ _ _ _ _ AP UB) as [RB ->].
  apply pbind_go in X. destruct X as (s4 & X4 & X). apply pbind_go in X4. destruct X4 as (s4' & X4 & Y). injection Y as <-.
  assert (ENDS : forall k, u_bounds u' k E = None /\ u_acts u' k E = None).
  { intros k. destruct (update_bound_other _ _ _ _ _ _ k E UB (other_side k j)) as [-> ->]. apply (qu_end _ Q3). }
  destruct (quiet_change s3 u' j (nthq (g_b g) i / c) s4' Q3 RB) as (Q4 & U4 & V4 & W4); try assumption.
  { intros a Fa. replace (nthq (g_b g) i / c) with ((nthq (g_b g) i - (c * a - c * a)) / c) by (f_equal; ring). apply past_new; [assumption|].
    assert (Z : past (combination (row i) at_end) (nthq (g_b g) i)).
    { apply ROOM; [assumption|]. intros j' c' J. rewrite RI in J. destruct J as [J|[]]. injection J as <- <-. congruence. }
    rewrite RI in Z. cbn [combination] in Z. replace (c * at_end j + 0) with (c * a) in Z by (unfold at_end; rewrite Fa; ring). exact Z. }
  destruct (feasible_value g (i_u s4') j); [|discriminate]. apply queue_variable_same in X. destruct X as (Z1 & Z2 & Z3 & Z4 & Z5 & Z6).
  assert (CV' : forall k, cv s' k = cv s3 k) by (intros k; unfold cv; now rewrite Z6, V4). assert (CC' : forall k, cc s' k = cc s3 k) by (intros k; unfold cc; now rewrite Z6, W4).
  split; [|split].
  - apply (quiet_same s4'); try assumption.
    + intros k. unfold cc. now rewrite Z6.
    + intros k j' c'. rewrite CC', CV'. apply (qu_full _ Q3).
  - intros k v H. rewrite Z4, U4 in H. pose proof (update_bound_ok g (i_u s3) j D (nthq (g_b g) i / c) AP) as K. rewrite UB in K. destruct K as (_ & _ & _ & _ & _ & K). rewrite K in H.
    destruct (is_at k D j D); [discriminate|]. exact H.
  - intros k H. rewrite CV', CV in H. lia.
Qed.

(** ** A row gives bounds to its variables *)
(** the bound [v] that row [i] gives to variable [k] *)
Definition given (i k : nat) (v : Qc) : Prop := exists c, In (k, c) (row i) /\ (forall k' c', In (k', c') (row i) -> k' <> k -> fixed_end k' <> None) /\
  c * v + (combination (row i) at_end - c * at_end k) = nthq (g_b g) i.
Lemma given_past i k v a : given i k v -> fixed_end k = Some a -> past a v.
Proof using M POS ROOM.
  intros (c & I & O & Q) F. pose proof (POS i k c I) as P.
  assert (Z : past (combination (row i) at_end) (nthq (g_b g) i)).
  { apply ROOM; [now apply (row_lt i k c)|]. intros k' c' I'. destruct (Nat.eq_dec k' k) as [->|N]; [congruence|]. now apply (O k' c'). }
  replace v with ((nthq (g_b g) i - (combination (row i) at_end - c * a)) / c); [now apply past_new|].
  rewrite <- Q. unfold at_end at 2. rewrite F. field. intros ->. qlra.
Qed.
Lemma bnot_bnot (d : bdir) : bnot (bnot d) = d. Proof using. clear. now destruct d. Qed.
Definition moves (i : nat) (s s' : pindex) : Prop := quiet s' /\ apart (i_u s') /\ c_var (i_c s') = c_var (i_c s) /\ c_con (i_c s') = c_con (i_c s) /\
  forall k v, u_acts (i_u s') k D = Some v -> u_acts (i_u s) k D = Some v \/ given i k v.
Lemma moves_refl i s : quiet s -> apart (i_u s) -> moves i s s.
Proof using. intros Q A. split; [assumption|]. split; [assumption|]. repeat split. intros k v H. now left. Qed.
Lemma moves_trans i a b c : moves i a b -> moves i b c -> moves i a c.
Proof using.
  intros (_ & _ & V1 & W1 & H1) (Q & A & V2 & W2 & H2). split; [assumption|]. split; [assumption|]. split; [congruence|]. split; [congruence|].
  intros k v H. apply H2 in H. destruct H as [H|H]; [now apply H1|now right].
Qed.
Lemma moves_one i s j new u' ch s' : quiet s -> apart (i_u s) -> given i j new -> update_activity_bound g (i_u s) j D new = (u', ch) ->
  apply_change g (with_u s u') j D ch = Go s' -> moves i s s'.
Proof using M POS ROOM.
  intros Q A GI UB X. destruct (update_activity_rebound g _ _ _ _ _ _ A UB) as [RB ->].
  destruct (quiet_change s u' j new s' Q RB) as (Q' & U & V & W); try assumption.
  - intros a F. now apply (given_past i j new a).
  - intros k. destruct (update_activity_other _ _ _ _ _ _ k E UB (other_side k j)) as [-> ->]. apply (qu_end _ Q).
  - split; [assumption|]. rewrite U. split; [apply (rb_apart _ _ _ _ _ _ RB)|]. split; [assumption|]. split; [assumption|].
    intros k v H. apply (rb_acts _ _ _ _ _ _ RB) in H. destruct H as [H|[H ->]]; [now left|right]. destruct (is_at_spec k D j D) as [[X1 _]|]; [rewrite X1; assumption|discriminate].
Qed.
Lemma moves_part i : (forall j c, In (j, c) (row i) -> fixed_end j <> None) -> forall l, incl l (row i) -> forall s made r,
  quiet s -> apart (i_u s) ->
  foldP (fun '(s, made) '(j, c) =>
      let+ x := unwrap (bound_of g (i_u s) j (bmul E c)) in
      let residual := combination (row i) at_end - c * x in
      let (u, change) := update_activity_bound g (i_u s) j (bmul D c) ((nthq (g_b g) i - residual) / c) in
      let+ s := apply_change g (with_u s u) j (bmul D c) change in
      Go (s, upgrade made change)) l (s, made) = Go r -> moves i s (fst r).
Proof using M POS ROOM.
  intros AE. induction l as [|[j c] l IH]; intros I s made r Q A X; cbn [foldP] in X.
  - injection X as <-. now apply moves_refl.
  - assert (J : In (j, c) (row i)) by (apply I; now left). pose proof (POS i j c J) as Pc.
    rewrite !bmul_pos, (end_of s j Q) in X by assumption. destruct (fixed_end j) as [a|] eqn:F; [|exfalso; now apply (AE j c J)]. cbn [unwrap pbind] in X. cbv zeta in X.
    destruct (update_activity_bound _ _ _ _ _) as [u' ch] eqn:UB. apply pbind_go in X. destruct X as ([s1 made1] & X1 & X). apply pbind_go in X1. destruct X1 as (s2 & X2 & Y). injection Y as -> <-.
    assert (K : moves i s s1).
    { eapply moves_one; try eassumption. exists c. split; [assumption|]. split; [intros k' c' I' _; now apply (AE k' c')|].
      unfold at_end at 3. rewrite F. field. intros ->. qlra. }
    eapply moves_trans; [exact K|]. destruct K as (Q1 & A1 & _). eapply IH; try eassumption. intros x Hx. apply I. now right.
Qed.
Lemma decide_end b a : past a b -> decide E kind b a = Go None.
Proof using. clear. unfold past, kind, decide. destruct D; cbn [bnot]; intros H; destruct (Qccompare_spec b a); try reflexivity; exfalso; subst; qlra. Qed.
Lemma decide_other b a : decide D kind b a = Go (if match D with Upper => qleb a b | Lower => qleb b a end then Some Drop else None).
Proof using.
  clear. unfold kind, decide. destruct D; destruct (Qccompare_spec b a) as [->|L|L];
    try (rewrite (proj2 (qleb_true _ _)) by qlra; reflexivity); match goal with |- context [qleb ?x ?y] => destruct (qleb x y) eqn:Z; [|reflexivity] end; qb; exfalso; qlra.
Qed.
Lemma usable_end s i : quiet s -> (i < m)%nat -> usable_side g (i_u s) i E = Some (nthq (g_b g) i).
Proof using TYPES. intros Q L. unfold usable_side. rewrite (type_here s i Q L), (b_here s i Q). unfold kind. clear. now destruct D. Qed.
Lemma usable_other s i : quiet s -> (i < m)%nat -> usable_side g (i_u s) i D = None.
Proof using TYPES. intros Q L. unfold usable_side. rewrite (type_here s i Q L). unfold kind. clear. now destruct D. Qed.
Lemma quiet_activity s i d s1 a : quiet s -> cc s i <> 0%nat -> (i < m)%nat -> activity_bound g rows s i d = Go (s1, a) ->
  quiet s1 /\ i_u s1 = i_u s /\ i_c s1 = i_c s /\ activity_sum g (i_u s) d (row i) = Go a.
Proof using.
  intros Q C L X. unfold activity_bound in X. fold (cache s i d) in X. destruct (cache s i d) as [x|] eqn:K.
  - injection X as <- <-. split; [assumption|]. repeat split. now apply (qu_cache _ Q).
  - rewrite (whole_row s i Q C) in X. apply pbind_go in X. destruct X as (x & X & Y). injection Y as <- <-. split; [|now repeat split].
    destruct Q as [H1 H2 H3 H4 H5 H6 H7]. constructor; try assumption.
    + cbn [with_act i_act]. now rewrite upd_length.
    + intros k e y Ck. unfold cache. cbn [with_act i_act]. rewrite nth_pair_upd by (rewrite H6; exact L). rewrite side_set.
      destruct (Nat.eqb_spec k i) as [->|]; [|now apply H7]. destruct (bdir_eqb_spec e d) as [->|]; [|now apply H7]. intros Y. injection Y as <-. exact X.
Qed.
Lemma ends_sum s i a : quiet s -> activity_sum g (i_u s) E (row i) = Go a -> (forall j c, In (j, c) (row i) -> fixed_end j <> None) /\ a = combination (row i) at_end.
Proof using POS.
  intros Q X. apply sum_go in X. destruct X as [X ->]. split; [intros j c I; rewrite <- (end_of s j Q); now apply (X j c)|]. apply combination_ext. intros j c _. now apply end_value.
Qed.
Lemma known_ends s i : quiet s -> known_activity g (i_u s) E (row i) = combination (row i) at_end.
Proof using POS.
  intros Q. unfold known_activity. assert (P : forall j c, In (j, c) (row i) -> 0 < c) by (intros j c; apply POS). generalize (Qcplus_0_l (combination (row i) at_end)).
  assert (Z : forall l acc, (forall j c, In (j, c) l -> 0 < c) -> fold_left (fun acc '(j, c) => match bound_of g (i_u s) j (bmul E c) with Some x => acc + c * x | None => acc end) l acc = acc + combination l at_end).
  { induction l as [|[j c] l IH]; intros acc P'; cbn [fold_left combination]; [ring|]. rewrite IH by (intros k e I; apply (P' k); now right). rewrite bmul_pos by (apply (P' j); now left).
    rewrite (end_of s j Q). unfold at_end at 2. destruct (fixed_end j); ring. }
  rewrite (Z (row i) 0 P). auto.
Qed.
Lemma one_lacks {A} (p : A -> bool) l x y : length (filter p l) = 1%nat -> In x l -> In y l -> p x = true -> p y = true -> x = y.
Proof using.
  clear. intros L X Y PX PY. assert (HX : In x (filter p l)) by (apply filter_In; now split). assert (HY : In y (filter p l)) by (apply filter_In; now split).
  destruct (filter p l) as [|z [|]]; try discriminate. destruct HX as [<-|[]], HY as [<-|[]]. reflexivity.
Qed.
Lemma quiet_propagate s i d s' ch : calm s -> quiet s -> cc s i <> 0%nat -> (ca s i d <= 1)%nat -> domain_propagation_rule g rows s i d = Go (s', ch) ->
  quiet s' /\ (forall k, cv s' k <> 0%nat -> cv s k <> 0%nat) /\
  forall k v, u_acts (i_u s') k D = Some v -> u_acts (i_u s) k D = Some v \/ d = E /\ given i k v.
Proof using M POS TYPES ROOM.
  intros CALM Q C L X. pose proof CALM as (T & OP & RG). pose proof (bk_cc _ _ _ _ _ T C) as Li. unfold domain_propagation_rule in X. fold (ca s i d) in X.
  assert (SAME : forall t, t = s -> quiet t /\ (forall k, cv t k <> 0%nat -> cv s k <> 0%nat) /\ forall k v, u_acts (i_u t) k D = Some v -> u_acts (i_u s) k D = Some v \/ d = E /\ given i k v).
  { intros t ->. split; [assumption|]. split; [auto|]. now left. }
  assert (MOVES : forall t, d = E -> moves i s t -> quiet t /\ (forall k, cv t k <> 0%nat -> cv s k <> 0%nat) /\ forall k v, u_acts (i_u t) k D = Some v -> u_acts (i_u s) k D = Some v \/ d = E /\ given i k v).
  { intros t -> (QT & _ & V & _ & A). split; [assumption|]. split; [intros k; unfold cv; now rewrite V|]. intros k v H. apply A in H. tauto. }
  destruct (ca s i d) as [|[|k]] eqn:CA; [| |lia].
  - unfold propagate_row in X. apply pbind_go in X. destruct X as ([s1 a] & X1 & X). destruct (quiet_activity s i d s1 a Q C Li X1) as (Q1 & U1 & C1 & S1).
    unfold constraint_part in X. rewrite (type_here s1 i Q1 Li), (b_here s1 i Q1) in X. destruct (sides d) as [->| ->].
    + rewrite decide_other in X. cbn [pbind] in X. destruct (match D with Upper => _ | Lower => _ end); cbn [pbind] in X; rewrite (usable_other s1 i Q1 Li) in X; cbn [pbind] in X.
      * apply pbind_go in X. destruct X as (s2 & X2 & X). injection X as <- <-.
        assert (CALM1 : calm s1).
        { unfold activity_bound in X1. fold (cache s i D) in X1. destruct (cache s i D) as [x|] eqn:K; [injection X1 as <- <-; assumption|]. apply pbind_go in X1. destruct X1 as (y & Y & X1). injection X1 as <- <-.
          split; [|split; assumption]. destruct T as [H1 H2 H3 H4 H5 H6 H7 H8 H9 H10 H11 H12 [A1 A2 A3 A4 A5]]. constructor; try assumption. constructor; try assumption.
          - apply (qu_len _ Q1).
          - intros k e Ck. unfold cache. cbn [with_act i_act]. rewrite nth_pair_upd by (rewrite (qu_len _ Q); exact Li). rewrite side_set.
            destruct (Nat.eqb_spec k i) as [->|]; [|now apply A4]. destruct (bdir_eqb_spec e D) as [->|]; [|now apply A4]. intros _. exact CA. }
        destruct (quiet_drop s1 i s2 CALM1 Q1) as (Q2 & A2 & V2); [unfold cc in *; now rewrite C1|assumption|]. split; [assumption|]. split.
        -- intros k H. apply V2 in H. unfold cv in *. now rewrite C1 in H.
        -- intros k v H. left. change (u_acts (i_u s2) k D = Some v) in H. now rewrite A2, U1 in H.
      * injection X as <- <-. split; [assumption|]. rewrite U1. unfold cv. rewrite C1. split; [auto|]. now left.
    + destruct (ends_sum s i a Q S1) as [AE ->]. rewrite decide_end in X by (apply ROOM; assumption). cbn [pbind] in X. rewrite (usable_end s1 i Q1 Li) in X.
      apply pbind_go in X. destruct X as (r & X & Y). destruct r as [s2 made]. injection Y as <- <-. apply MOVES; [reflexivity|]. unfold variable_part in X.
      rewrite (whole_row s1 i Q1) in X by (unfold cc in *; now rewrite C1).
      rewrite bnot_bnot in X. apply (moves_part i AE) in X; try assumption; [|apply incl_refl|rewrite U1; apply (bk_apart _ _ _ _ T)].
      cbn [fst] in X. destruct X as (Z1 & Z2 & Z3 & Z4 & Z5). split; [assumption|]. split; [assumption|]. rewrite Z3, Z4, C1, <- U1. repeat split. assumption.
  - unfold bound_one in X. destruct (sides d) as [->| ->].
    + rewrite (usable_other s i Q Li) in X. injection X as <- <-. now apply SAME.
    + rewrite (usable_end s i Q Li) in X. rewrite (ao_missing _ _ _ (bk_acts _ _ _ _ T)) in CA by assumption. unfold missing in CA. rewrite (whole_row s i Q C) in CA, X.
      apply pbind_go in X. destruct X as ([j c] & ME & X). destruct (missing_entry _ _ _ _) as [[j' c']|] eqn:ME'; [|discriminate]. injection ME as -> ->.
      pose proof (find_some _ _ ME') as [J JN]. cbn beta iota in JN. pose proof (POS i j c J) as Pc. rewrite bmul_pos in JN by assumption. rewrite (end_of s j Q) in JN.
      assert (F : fixed_end j = None) by (now destruct (fixed_end j)). rewrite bmul_pos, bnot_bnot, (known_ends s i Q) in X by assumption.
      destruct (update_activity_bound _ _ _ _ _) as [u' ch'] eqn:UB. apply pbind_go in X. destruct X as (s2 & X & Y). injection Y as <- <-. apply MOVES; [reflexivity|].
      eapply moves_one; try eassumption; [apply (bk_apart _ _ _ _ T)|]. exists c. split; [assumption|]. split.
      * intros k e I N Fk. apply N. assert (Z : (k, e) = (j, c)); [|now injection Z].
        apply (one_lacks (lacks_bound g (i_u s) E) (row i)); try assumption; unfold lacks_bound; cbn [fst snd]; rewrite bmul_pos by (now apply (POS i) || assumption || now apply (POS i k)); rewrite (end_of s _ Q); [now rewrite Fk|now rewrite F].
      * unfold at_end at 3. rewrite F. field. intros ->. qlra.
Qed.

(** ** The rows that bounds rest on *)
Definition on_one (sup : supports) (s : pindex) : Prop := forall j v, cv s j <> 0%nat -> u_acts (i_u s) j D = Some v -> exists k, rests_on sup j D = [k] /\ given k j v.
Lemma scaled c a b : 0 < c -> a < b -> c * a < c * b.
Proof using. clear. intros P L. rewrite !(Qcmult_comm c). now apply Qcmult_lt_compat_r. Qed.
Lemma not_self s i d j v : calm s -> quiet s -> (2 <= cc s i)%nat -> weakens g rows s i d = true -> u_acts (i_u s) j D = Some v -> given i j v -> False.
Proof using M POS TYPES ROOM.
  intros (T & _) Q C2 W A (c & I & O & EQ). assert (C : cc s i <> 0%nat) by lia. pose proof (bk_cc _ _ _ _ _ T C) as Li. pose proof (bk_row _ _ _ _ _ T C) as LR.
  unfold weakens in W. rewrite (whole_row s i Q C) in W, LR. rewrite (type_here s i Q Li), (b_here s i Q) in W.
  destruct (activity_sum g (i_u s) d (row i)) as [a|w| |] eqn:S; try discriminate. destruct (sides d) as [->| ->].
  - rewrite decide_other in W. apply sum_go in S. destruct S as [S ->].
    assert (BJ : bnd (i_u s) D j = v) by (unfold bnd, bound_of; now rewrite A).
    assert (OTHER : forall k e, In (k, e) (row i) -> k <> j -> past (at_end k) (bnd (i_u s) D k)).
    { intros k e K N. pose proof (O k e K N) as F. pose proof (S k e K) as B. unfold at_end, bnd. destruct (fixed_end k) as [x|] eqn:Fk; [|contradiction].
      destruct (bound_of g (i_u s) k D) as [y|] eqn:By; [|contradiction]. now apply (qu_past _ Q k). }
    assert (LEN : (2 <= length (row i))%nat) by lia. pose proof (mo_nd_row _ _ M i) as ND. clear - W BJ OTHER LEN ND EQ I POS. unfold past in OTHER. unfold fixed_end in *.
    set (f := bnd (i_u s) D) in *. destruct D.
    + destruct (qleb _ _) eqn:Z in W; [|discriminate]. qb.
      pose proof (combination_two (row i) at_end f j c ND I LEN (fun k e K N => scaled e _ _ (POS i k e K) (OTHER k e K N))) as X. rewrite BJ in X. qlra.
    + destruct (qleb _ _) eqn:Z in W; [|discriminate]. qb.
      pose proof (combination_two (row i) f at_end j c ND I LEN (fun k e K N => scaled e _ _ (POS i k e K) (OTHER k e K N))) as X. rewrite BJ in X. qlra.
  - destruct (ends_sum s i a Q S) as [AE ->]. rewrite decide_end in W by (apply ROOM; assumption). discriminate.
Qed.
Lemma no_support s sup i : quiet s -> cc s i <> 0%nat -> row_support rows s sup i E = [].
Proof using POS.
  intros Q C. unfold row_support. rewrite (whole_row s i Q C). assert (P : forall j c, In (j, c) (row i) -> 0 < c) by (intros j c; apply POS).
  induction (row i) as [|[j c] l IH]; [reflexivity|]. cbn [fold_left]. rewrite bmul_pos by (apply (P j); now left). rewrite (proj2 (qu_end _ Q j)). apply IH. intros k e K. apply (P k). now right.
Qed.
Lemma lone_support s sup i d : calm s -> quiet s -> on_one sup s -> (2 <= cc s i)%nat -> weakens g rows s i d = true -> memb i (row_support rows s sup i d) = false.
Proof using M POS TYPES ROOM.
  intros CALM Q ON C2 W. destruct (memb i (row_support rows s sup i d)) eqn:X; [|reflexivity]. exfalso. assert (C : cc s i <> 0%nat) by lia.
  apply memb_In in X. destruct (sides d) as [->| ->]; [|now rewrite no_support in X].
  unfold row_support in X. rewrite (whole_row s i Q C) in X.
  assert (P : forall j c, In (j, c) (row i) -> 0 < c /\ cv s j <> 0%nat) by (intros j c I; split; [now apply (POS i j)|now apply (qu_full _ Q i j c)]).
  assert (Z : forall l acc, (forall j c, In (j, c) l -> 0 < c /\ cv s j <> 0%nat) ->
    In i (fold_left (fun l '(j, c) => match u_acts (i_u s) j (bmul D c) with None => l | Some _ => join l (rests_on sup j (bmul D c)) end) l acc) ->
    In i acc \/ exists j v, u_acts (i_u s) j D = Some v /\ given i j v).
  { induction l as [|[j c] l IH]; intros acc P' Y; cbn [fold_left] in Y; [now left|]. apply IH in Y; [|intros k e K; apply (P' k e); now right]. destruct Y as [Y|Y]; [|now right].
    destruct (P' j c (or_introl eq_refl)) as [Pc Vj]. rewrite bmul_pos in Y by assumption. destruct (u_acts (i_u s) j D) as [v|] eqn:A; [|now left]. apply join_In in Y. destruct Y as [Y|Y]; [now left|right].
    destruct (ON j v Vj A) as (k & R & GI). rewrite R in Y. destruct Y as [->|[]]. now exists j, v. }
  destruct (Z (row i) [] P X) as [[]|(j & v & A & GI)]. now apply (not_self s i D j v).
Qed.
Lemma drained {A} (p : A -> bool) l x t : drain p l = (Some x, t) -> p x = true /\ In x l /\ incl t l.
Proof using.
  clear. intros X. pose proof (drain_spec p l) as H. rewrite X in H. destruct H as (P & pre & -> & _). split; [assumption|]. split; [apply in_or_app; right; now left|].
  intros y Y. apply in_or_app. right. now right.
Qed.
Lemma drain_spec_nil {A} (p : A -> bool) l t : drain p l = (None, t) -> t = [].
Proof using. clear. intros X. pose proof (drain_spec p l) as H. rewrite X in H. now destruct H. Qed.
Lemma quiet_q s q : quiet s -> quiet (with_q s q).
Proof using. intros Q. apply (quiet_same s); try reflexivity; auto. apply (qu_full _ Q). Qed.
Lemma safe_step s sup : calm s -> quiet s -> on_one sup s -> step_safe g rows s sup = true /\
  forall s' ch, presolve_step g rows s = Go (s', ch) -> quiet s' /\ on_one (next_supports g rows s sup s') s'.
Proof using M POS COST TYPES ROOM.
  intros CALM Q ON. pose proof CALM as (T & OP & RG).
  assert (NOSUB : q_sub (i_q s) = []).
  { destruct (q_sub (i_q s)) as [|j l] eqn:X; [reflexivity|]. exfalso. apply (never_crossed s j Q). apply (bk_sub _ _ _ _ T). rewrite X. now left. }
  assert (NA : next_action s = match fst (drain (con_active (i_c s)) (q_bound (i_q s))) with
      | Some i => TurnIntoBound i
      | None => match fst (drain (var_active (i_c s)) (q_slack (i_q s))) with
          | Some j => RemoveSlack j
          | None => match fst (drain (fun e => con_active (i_c s) (fst e)) (q_act (i_q s))) with Some (i, d) => Propagate i d | None => NoRule end
          end end) by (unfold next_action; now rewrite NOSUB).
  assert (KEEP : forall s', (forall k, cv s' k <> 0%nat -> cv s k <> 0%nat) -> (forall k v, u_acts (i_u s') k D = Some v -> u_acts (i_u s) k D = Some v) ->
    (forall i w l, reason g rows s sup = Some (i, w, l) -> w = true -> forall k v, u_acts (i_u s) k D = Some v -> given i k v -> False) -> on_one (next_supports g rows s sup s') s').
  { intros s' V A W j v Vj Aj. pose proof (V j Vj) as Vj'. pose proof (A j v Aj) as Aj'. destruct (ON j v Vj' Aj') as (k & R & GI). exists k. split; [|assumption].
    rewrite (next_rests g rows s sup s' j D) by now apply (bk_cv _ _ _ _ _ T). rewrite Aj, Aj', (proj2 (same_bound_ok (Some v) (Some v)) eq_refl), R. unfold next_support.
    destruct (reason g rows s sup) as [[[i w] l]|] eqn:RE; [|reflexivity]. destruct w; [|reflexivity]. cbn [andb]. destruct (memb i [k]) eqn:MK; [|reflexivity]. exfalso.
    apply memb_In in MK. destruct MK as [<-|[]]. now apply (W k true l eq_refl eq_refl j v). }
  unfold step_safe, presolve_step. rewrite NA. rewrite NOSUB. cbn [fst snd].
  destruct (drain (con_active (i_c s)) (q_bound (i_q s))) as [[i|] tb] eqn:EB; cbn [fst snd] in *.
  { split; [reflexivity|]. intros s' ch X. apply pbind_go in X. destruct X as (s1 & X & Y). injection Y as <- _.
    apply drained in EB. destruct EB as (Oi & Ii & INC). apply (on_row_cc s) in Oi. assert (C1 : cc s i = 1%nat) by (pose proof (bk_bq' _ _ _ _ T i Ii); lia).
    change (with_q s (mk_queues [] tb (q_slack (i_q s)) (q_act (i_q s)))) with (set_qb tb (with_q s (mk_queues [] (q_bound (i_q s)) (q_slack (i_q s)) (q_act (i_q s))))) in X.
    set (s0 := with_q s _) in X. rewrite bound_rule_qb in X. unfold pmap in X. apply pbind_go in X. destruct X as (s2 & X & Y). injection Y as <-.
    assert (CALM0 : calm s0). { apply calm_queues; try assumption; cbn [q_sub q_bound q_slack q_act]; try apply incl_refl; [apply (bk_bq _ _ _ _ T)|intros x []]. }
    destruct (quiet_bound s0 i s2 CALM0 (quiet_q _ _ Q) C1 X) as (Q2 & A2 & V2). split; [now apply quiet_q|]. apply KEEP; [exact V2|exact A2|].
    intros i' w l RE. unfold reason in RE. rewrite NA in RE. discriminate. }
  pose proof (drain_spec (con_active (i_c s)) (q_bound (i_q s))) as DB. rewrite EB in DB. destruct DB as [-> DB].
  assert (NB : forall k, cc s k <> 1%nat).
  { intros k Ck. pose proof (bk_bq _ _ _ _ T k Ck) as H. apply DB in H. apply (on_row_false s) in H. rewrite H in Ck. discriminate. }
  destruct (drain (var_active (i_c s)) (q_slack (i_q s))) as [[j|] ts] eqn:ES; cbn [fst snd] in *.
  { exfalso. apply drained in ES. destruct ES as (Oj & Ij & _). apply (on_var_cv s) in Oj. apply (COST j); [now apply (bk_cv _ _ _ _ _ T)|]. now apply (bk_sq _ _ _ _ T). }
  destruct (drain (fun e : nat * bdir => con_active (i_c s) (fst e)) (q_act (i_q s))) as [[[i d]|] ta] eqn:EA; cbn [fst snd] in *.
  - apply drained in EA. destruct EA as (Oi & Ii & INC). cbn [fst] in Oi. apply (on_row_cc s) in Oi. assert (C2 : (2 <= cc s i)%nat) by (specialize (NB i); lia).
    assert (Li : (i < m)%nat) by now apply (bk_cc _ _ _ _ _ T). assert (CA : (ca s i d <= 1)%nat) by now apply (ao_queue _ _ _ (bk_acts _ _ _ _ T)). split.
    + unfold propagation_safe. fold (ca s i d). destruct (ca s i d); [|reflexivity]. apply andb_true_intro. split.
      * unfold activity_right. fold (cache s i d). destruct (cache s i d) as [x|] eqn:K; [|reflexivity]. rewrite (whole_row s i Q Oi), (qu_cache _ Q i d x Oi K). now apply qeqb_true.
      * unfold decision_safe. apply andb_true_intro. split.
        -- destruct (weakens g rows s i d) eqn:W; [|reflexivity]. now rewrite (lone_support s sup i d CALM Q ON C2 W).
        -- destruct (activity_sum _ _ _ _) as [a|w| |]; try reflexivity. rewrite (type_here s i Q Li). destruct (decide d kind _ a) eqn:DE; try reflexivity.
           apply decide_panic in DE. destruct DE as (_ & (r & X) & _). exfalso. revert X. unfold kind. clear. destruct D; discriminate.
    + intros s' ch X. set (s0 := with_q s _) in X.
      assert (CALM0 : calm s0).
      { apply drain_spec_nil in ES. apply calm_queues; cbn [q_sub q_bound q_slack q_act].
        - assumption.
        - intros k Ck. exfalso. now apply (NB k).
        - intros x [].
        - intros x [].
        - rewrite ES. intros x [].
        - apply INC. }
      destruct (quiet_propagate s0 i d s' ch CALM0 (quiet_q _ _ Q) Oi CA X) as (Q2 & V2 & A2). split; [assumption|].
      change (i_u s0) with (i_u s) in A2. intros j v Vj Aj. pose proof (V2 j Vj) as Vj'. change (cv s j <> 0%nat) in Vj'.
      rewrite (next_rests g rows s sup s' j D) by now apply (bk_cv _ _ _ _ _ T). unfold reason. rewrite NA. unfold next_support.
      destruct (same_bound (u_acts (i_u s) j D) (u_acts (i_u s') j D)) eqn:SB.
      * apply same_bound_ok in SB. assert (Aj' : u_acts (i_u s) j D = Some v) by congruence. destruct (ON j v Vj' Aj') as (k & R & GI). exists k. split; [|assumption]. rewrite R.
        destruct (weakens g rows s i d) eqn:W; [|reflexivity]. cbn [andb]. destruct (memb i [k]) eqn:MK; [|reflexivity]. exfalso.
        apply memb_In in MK. destruct MK as [<-|[]]. now apply (not_self s k d j v).
      * destruct (A2 j v Aj) as [Z|[-> GI]]; [exfalso; rewrite Aj, Z in SB; rewrite (proj2 (same_bound_ok _ _) eq_refl) in SB; discriminate|].
        exists i. split; [|assumption]. now rewrite no_support.
  - split; [reflexivity|]. intros s' ch X. injection X as <- <-. split; [now apply quiet_q|]. apply KEEP; [auto|auto|]. intros i w l RE. unfold reason in RE. rewrite NA in RE. discriminate.
Qed.
Lemma calm_domains s : calm s -> domains_left g s = true.
Proof using.
  intros (_ & O & _). unfold domains_left. apply forallb_forall. intros j _. unfold has_value. pose proof (opened_value g (i_u s) j O). destruct (feasible_value g (i_u s) j); [apply orb_true_r|contradiction].
Qed.
Lemma safe_loop_ok : forall fuel stale sup s, calm s -> quiet s -> on_one sup s -> safe_loop g rows fuel stale sup s = true.
Proof using M POS COST TYPES ROOM.
  induction fuel as [|fuel IH]; intros stale sup s CALM Q ON; cbn [safe_loop]; rewrite (calm_domains s CALM); cbn [andb]; (destruct (queues_empty (i_q s)); [reflexivity|]);
    (destruct (nr_remaining g (i_u s)) as [r| | |]; try reflexivity); (destruct (Nat.leb r stale); [reflexivity|]); [reflexivity|].
  destruct (safe_step s sup CALM Q ON) as [-> ST]. cbn [andb]. destruct (presolve_step_agree no_sites g rows M eq_refl s CALM) as [_ P].
  destruct (presolve_step g rows s) as [[s' ch]| | |] eqn:X; try reflexivity. cbn [pspec fst] in P. destruct (ST s' ch eq_refl) as [Q' ON']. destruct ch; now apply IH.
Qed.

(** ** The start *)
Lemma nth_mapped {A} (f : nat -> A) k d i : (i < k)%nat -> nth i (map f (range 0 k)) d = f i.
Proof using. clear. intros L. rewrite (nth_indep _ _ (f 0%nat)) by (rewrite map_length; unfold range; rewrite seq_length; lia). rewrite map_nth. unfold range. rewrite seq_nth by lia. reflexivity. Qed.
Lemma quiet_start s : index_new g rows = Go s -> quiet s /\ on_one [] s.
Proof using M SPREAD.
  intros X. destruct (index_new_bounds g rows s X) as [B A].
  assert (BO : forall j d, bound_of g (i_u s) j d = vbound (gvar g j) d) by (intros; unfold bound_of; now rewrite A, B).
  unfold index_new, updates_new in X. apply pbind_go in X. destruct X as (u & X & Y). injection Y as <-. cbn [i_u] in *. apply pbind_go in X. destruct X as (u1 & X1 & X2). split.
  - assert (K : (u_types u, u_b u) = (u_types no_updates, u_b no_updates)).
    { transitivity (u_types u1, u_b u1).
      - refine (fold_same _ (fun u => (u_types u, u_b u)) _ _ _ _ X2). intros u0 j u2. unfold empty_row. destruct (empty_feasible _ _); intros Z; [now injection Z as <-|discriminate].
      - refine (fold_same _ (fun u => (u_types u, u_b u)) _ _ _ _ X1). intros u0 j u2. unfold empty_column. intros Z. apply pbind_go in Z. destruct Z as ([v c] & _ & Z). now injection Z as <-. }
    injection K as KT KB. constructor; cbn [i_u i_act].
    + intros i. now rewrite KT.
    + intros i. now rewrite KB.
    + intros j. now rewrite A, B.
    + intros j v a. rewrite BO. apply SPREAD.
    + intros i j c _ I. apply (mo_in _ _ M) in I. destruct (mo_lt g rows i j c M I) as [_ L]. unfold cv. cbn [i_c counters_new c_var].
      rewrite nth_mapped by exact L. intros Z. apply length_zero_iff_nil in Z. rewrite Z in I. contradiction.
    + apply repeat_length.
    + intros i d x _. unfold cache. cbn [i_act]. rewrite nth_repeat. destruct d; discriminate.
  - intros j v _ Z. cbn [i_u] in Z. now rewrite A in Z.
Qed.
End Sides.

Section Ends.
Variable g : general.
Hypothesis G : general_ok g.
Lemma ends_in rows i j c : matrix_ok g rows -> In (j, c) (nth i rows []) -> (i < g_rows g)%nat /\ (j < nr_vars g)%nat /\ c <> 0 /\ c = coefficient g i j.
Proof using G.
  intros M I. apply (mo_in _ _ M) in I. destruct (mo_lt g rows i j c M I) as [L1 L2]. split; [assumption|]. split; [assumption|]. split; [now apply (mo_nz _ _ M) in I|].
  unfold coefficient. symmetry. apply (den_In_iff (g_rows g)); [now apply (gok_sorted _ G)|assumption].
Qed.
Lemma ends_out rows i j : matrix_ok g rows -> coefficient g i j <> 0 -> In (j, coefficient g i j) (nth i rows []).
Proof using G.
  intros M N. apply (mo_in _ _ M). unfold coefficient in *. destruct (Nat.lt_ge_cases j (nr_vars g)) as [L|L].
  - apply (den_In_iff (g_rows g)); [now apply (gok_sorted _ G)|]. now split.
  - rewrite nth_overflow in N by (rewrite (gok_cols _ G); exact L). exfalso. now apply N.
Qed.
Lemma one_sided_safe : one_sided g -> safe g.
Proof using G.
  intros S fuel. unfold safe_run. destruct (matrix_from g G) as (rows & -> & M & V). destruct (index_new g rows) as [s| | |] eqn:X; try reflexivity.
  destruct (index_new_calm no_sites g rows M G) as [_ C]. rewrite X in C. cbn [pspec] in C. destruct S as [[[H1 H2 H4 H5]|[H1 H2 H4 H5]] H3].
  - assert (SPREAD : forall j v a, vbound (gvar g j) Upper = Some v -> fixed_end g Upper j = Some a -> past Upper a v).
    { intros j v a U F. unfold past. destruct (Nat.lt_ge_cases j (nr_vars g)) as [L|L]; [exact (H4 j a v L F U)|]. unfold gvar in U. rewrite nth_overflow in U by exact L. discriminate. }
    destruct (quiet_start g rows M Upper SPREAD s X) as [Q ON]. apply (safe_loop_ok g rows M Upper); try assumption.
    + intros i j c I. destruct (ends_in rows i j c M I) as (L1 & L2 & N & ->). specialize (H2 i j L1 L2). apply Qcle_lt_or_eq in H2. destruct H2 as [H2|H2]; [assumption|]. exfalso. now apply N.
    + intros i L E. unfold past. rewrite V by assumption. apply (H5 i L). intros j L2 N. apply (E j (coefficient g i j)). now apply ends_out.
  - assert (SPREAD : forall j v a, vbound (gvar g j) Lower = Some v -> fixed_end g Lower j = Some a -> past Lower a v).
    { intros j v a U F. unfold past. destruct (Nat.lt_ge_cases j (nr_vars g)) as [L|L]; [exact (H4 j v a L U F)|]. unfold gvar in U. rewrite nth_overflow in U by exact L. discriminate. }
    destruct (quiet_start g rows M Lower SPREAD s X) as [Q ON]. apply (safe_loop_ok g rows M Lower); try assumption.
    + intros i j c I. destruct (ends_in rows i j c M I) as (L1 & L2 & N & ->). specialize (H2 i j L1 L2). apply Qcle_lt_or_eq in H2. destruct H2 as [H2|H2]; [assumption|]. exfalso. now apply N.
    + intros i L E. unfold past. rewrite V by assumption. apply (H5 i L). intros j L2 N. apply (E j (coefficient g i j)). now apply ends_out.
Qed.
End Ends.
