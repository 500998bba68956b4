(** * Grouping constraints, and standardization as a whole *)
From Verif Require Import SpecGeneral SparseP KindP FinishP StandardP StandardQ.
Local Open Scope Qc_scope.

Lemma destination_spec ts ks c i : number_types (mk_counts 0 0 0 0) ts = (ks, c) -> (i < length ts)%nat ->
  destination ts ks c i = Ok (dst ts i).
Proof.
  intros E L. destruct (number_types_spec ts _ _ _ E) as (HC & HL & HN). unfold destination.
  rewrite (index_nth ts i Equal) by assumption. cbn [bind]. rewrite (index_nth ks i 0%nat) by lia. cbn [bind]. f_equal.
  rewrite HN by assumption. unfold dst.
  pose proof (HC 0%nat ltac:(lia)) as H0. pose proof (HC 1%nat ltac:(lia)) as H1. pose proof (HC 2%nat ltac:(lia)) as H2.
  cbn [count_of n_equal n_range n_less n_greater] in H0, H1, H2.
  destruct (nth i ts Equal); cbn [type_rank below count_of n_equal n_range n_less n_greater]; lia.
Qed.

Section Scatter.
Variables (d : nat -> nat) (dest : nat -> res nat) (b : list Qc).
Lemma scatter l : forall nb, NoDup l -> (forall i, In i l -> dest i = Ok (d i) /\ (i < length b)%nat /\ (d i < length nb)%nat) ->
  (forall i i', In i l -> In i' l -> d i = d i' -> i = i') ->
  exists nb', foldM (fun nb i => let* d := dest i in let* v := index b i in set_index nb d (Some v)) l nb = Ok nb' /\
    length nb' = length nb /\ (forall i, In i l -> nth (d i) nb' None = Some (nthq b i)) /\
    (forall p, (forall i, In i l -> d i <> p) -> nth p nb' None = nth p nb None).
Proof.
  induction l as [|i l IH]; intros nb ND H Inj; cbn [foldM].
  - exists nb. repeat split; auto. intros i [].
  - inversion ND as [|a c Ni ND']; subst a c. destruct (H i (or_introl eq_refl)) as (Ed & Li & Ld).
    rewrite Ed. cbn [bind]. rewrite (index_nth b i 0) by assumption. cbn [bind]. rewrite set_index_upd by assumption. cbn [bind].
    destruct (IH (upd nb (d i) (Some (nth i b 0))) ND') as (nb' & E & L & HI & HO).
    { intros k Hk. rewrite upd_length. apply H. now right. }
    { intros; apply Inj; auto; now right. }
    exists nb'. split; [assumption|]. rewrite upd_length in L. split; [assumption|]. split.
    + intros k [<-|Hk]; [|now apply HI]. rewrite HO.
      * now apply nth_upd_same.
      * intros k Hk C. assert (k = i) by (apply Inj; auto; [now right|now left]). congruence.
    + intros p Hp. rewrite HO by (intros; apply Hp; now right). apply nth_upd_other; [assumption|].
      intro C. apply (Hp i); [now left|congruence].
Qed.
End Scatter.

Lemma mapM_ofopt {A} (l : list (option A)) (d : A) : (forall p, (p < length l)%nat -> nth p l None <> None) ->
  exists l', mapM ofopt l = Ok l' /\ length l' = length l /\ forall p, (p < length l)%nat -> nth p l None = Some (nth p l' d).
Proof.
  induction l as [|x l IH]; intros H; cbn [mapM].
  - exists []. repeat split. cbn. intros; lia.
  - destruct x as [x|]; [|exfalso; apply (H 0%nat); cbn; [lia|reflexivity]]. cbn [ofopt bind].
    destruct IH as (l' & E & L & N). { intros p Lp. apply (H (Datatypes.S p)). cbn. lia. }
    rewrite E. cbn [bind]. exists (x :: l'). split; [reflexivity|]. split; [cbn; lia|]. intros [|p] Lp; cbn; [reflexivity|].
    apply N. cbn in Lp. lia.
Qed.

Lemma wfs_nodup_map m (col : svec) (d : nat -> nat) : wfs m col ->
  (forall i i', (i < m)%nat -> (i' < m)%nat -> d i = d i' -> i = i') -> NoDup (map (fun x => fst (let '(i, v) := x in (d i, v))) col).
Proof.
  unfold wfs. generalize 0%nat. induction col as [|[i v] col IH]; intros lo W Inj; cbn [map]; [constructor|].
  cbn in W. destruct W as (L & N & W). constructor; [|now apply (IH (Datatypes.S i))].
  intro C. apply in_map_iff in C. destruct C as ([k w] & E & H). cbn in E.
  destruct (den_In _ _ _ _ _ W H) as (_ & _ & Lk). apply Inj in E; lia.
Qed.

Lemma reorder_corr g : general_ok g -> exists g' c, reorder g = Ok (g', c) /\
  general_ok g' /\ g_vars g' = g_vars g /\ g_fixed g' = g_fixed g /\ corr True g g' (fun x => x) (fun x => x) /\
  (forall i, (i < g_rows g)%nat -> (dst (g_types g) i < g_rows g)%nat /\ row_type g' (dst (g_types g) i) = row_type g i /\
     nthq (g_b g') (dst (g_types g) i) = nthq (g_b g) i /\ forall x, row_value g' x (dst (g_types g) i) = row_value g x i) /\
  (forall k, (k < 4)%nat -> count_of c k = cnt k (g_types g)) /\ g_rows g' = g_rows g.
Proof.
  intros P. unfold reorder. destruct (number_types (mk_counts 0 0 0 0) (g_types g)) as [ks c0] eqn:EN.
  destruct (number_types_spec _ _ _ _ EN) as (HC & _ & _).
  set (d := dst (g_types g)) in *. set (m := g_rows g) in *.
  assert (D : forall i, (i < m)%nat -> destination (g_types g) ks c0 i = Ok (d i) /\ (d i < m)%nat).
  { intros i Li. unfold m in Li. rewrite <- (gok_types _ P) in Li. split; [now apply destination_spec|].
    unfold m. rewrite <- (gok_types _ P). now apply dst_lt. }
  assert (DI : forall i i', (i < m)%nat -> (i' < m)%nat -> d i = d i' -> i = i').
  { intros i i' Li Li'. unfold m in *. rewrite <- (gok_types _ P) in *. now apply dst_inj. }
  assert (DS : forall p, (p < m)%nat -> exists i, (i < m)%nat /\ d i = p).
  { intros p Lp. unfold m in *. rewrite <- (gok_types _ P) in *. now apply dst_surj. }
  destruct (scatter d (destination (g_types g) ks c0) (g_b g) (range 0 (length (g_b g))) (repeat None (length (g_b g)))) as (nb & Enb & Lnb & HI & _).
  { apply seq_NoDup. }
  { intros i Hi. apply In_range in Hi. rewrite repeat_length. rewrite (gok_b _ P) in Hi |- *. fold m in Hi |- *. destruct (D i ltac:(lia)). repeat split; auto; lia. }
  { intros i i' Hi Hi'. apply In_range in Hi. apply In_range in Hi'. rewrite (gok_b _ P) in Hi, Hi'. apply DI; lia. }
  rewrite Enb. cbn [bind]. rewrite repeat_length, (gok_b _ P) in Lnb. fold m in Lnb.
  assert (HI' : forall i, (i < m)%nat -> nth (d i) nb None = Some (nthq (g_b g) i)).
  { intros i Li. apply HI. apply In_range. rewrite (gok_b _ P). fold m. lia. }
  destruct (mapM_ofopt nb 0) as (b & Eb & Lb & Nb).
  { intros p Lp. rewrite Lnb in Lp. destruct (DS p Lp) as (i & Li & <-). rewrite HI' by assumption. discriminate. }
  rewrite Eb. cbn [bind].
  set (colf := fun col : svec => map (fun '(i, v) => (d i, v)) col).
  assert (Ec : mapM (fun col => let* col' := mapM (fun '(i, v) => let* d := destination (g_types g) ks c0 i in Ok (d, v)) col in
                                Ok (sort_by fst col')) (g_cols g) = Ok (map (fun col => sort_by fst (colf col)) (g_cols g))).
  { apply mapM_map. intros col Hcol. apply In_nth with (d := []) in Hcol. destruct Hcol as (j & Lj & Ej).
    rewrite (gok_cols _ P) in Lj. pose proof (gok_sorted _ P j Lj) as W. rewrite Ej in W. fold m in W.
    rewrite (mapM_map _ (fun '(i, v) => (d i, v))); [reflexivity|].
    intros [i v] Hi. rewrite (proj1 (D i (wfs_In_lt _ _ _ _ W Hi))). reflexivity. }
  rewrite Ec. cbn [bind]. clear Ec.
  set (g' := mk_general _ _ _ _ _ _ _ _ _). exists g', c0. split; [reflexivity|].
  assert (Cd : forall j i, (j < nr_vars g)%nat -> (i < m)%nat -> coefficient g' (d i) j = coefficient g i j).
  { intros j i Lj Li. unfold coefficient. cbn [g_cols g'].
    set (h := fun col => sort_by fst (colf col)).
    rewrite (nth_indep _ [] (h [])) by (rewrite map_length, (gok_cols _ P); assumption). rewrite map_nth. unfold h. rewrite den_sort.
    pose proof (gok_sorted _ P j Lj) as W. fold m in W. revert W. generalize (nth j (g_cols g) []). intros col W.
    assert (B : forall i v, In (i, v) col -> (i < m)%nat) by (intros i0 v0; now apply (wfs_In_lt m)). clear W.
    unfold colf. induction col as [|[k v] col IH]; cbn [map den]; [reflexivity|].
    rewrite IH by (intros i0 v0 H0; apply (B i0 v0); now right). f_equal.
    destruct (Nat.eqb_spec i k) as [->|N].
    - now rewrite Nat.eqb_refl.
    - rewrite (proj2 (Nat.eqb_neq (d i) (d k))); [reflexivity|]. intro C. apply N. apply DI; [assumption| |assumption].
      apply (B k v). now left. }
  assert (RV : forall x i, (i < m)%nat -> row_value g' x (d i) = row_value g x i).
  { intros x i Li. unfold row_value. change (nr_vars g') with (nr_vars g). apply sum_ext. intros j Lj. now rewrite Cd. }
  assert (RT : forall i, (i < m)%nat -> row_type g' (d i) = row_type g i).
  { intros i Li. unfold row_type. cbn [g_types g']. apply nth_sorted. now rewrite (gok_types _ P). }
  assert (RB : forall i, (i < m)%nat -> nthq (g_b g') (d i) = nthq (g_b g) i).
  { intros i Li. cbn [g_b g']. destruct (D i Li) as [_ Ld]. specialize (HI' i Li). rewrite Nb in HI' by lia. injection HI' as HI'. exact HI'. }
  assert (FE : forall x, gfeasible g' x <-> gfeasible g x).
  { intros x. split; intros [A B]; (split; [|exact B]).
    - intros i Li. rewrite <- RT, <- RB, <- RV by assumption. apply A. change (g_rows g') with m. now apply D.
    - intros p Lp. change (g_rows g') with m in Lp. destruct (DS p Lp) as (i & Li & <-). rewrite RT, RB, RV by assumption. now apply A. }
  assert (LT : length (sort_by type_rank (g_types g)) = m).
  { rewrite sort_types_blocks, !app_length, !block_length. unfold m. rewrite <- (gok_types _ P). rewrite <- cnt_total. lia. }
  split; [|split; [reflexivity|split; [reflexivity|split; [|split; [|split; [|reflexivity]]]]]].
  - pose proof P as [PC PF PT PB PS PR PD PA PSp PFr]. constructor; try assumption.
    + cbn [g_cols g']. now rewrite map_length.
    + cbn [g_b g_rows g']. now rewrite Lb.
    + intros j Lj. change (nr_vars g') with (nr_vars g) in Lj. cbn [g_cols g_rows g']. fold m.
      set (h := fun col => sort_by fst (colf col)).
      rewrite (nth_indep _ [] (h [])) by (rewrite map_length, PC; assumption). rewrite map_nth. unfold h.
      pose proof (PS j Lj) as W. fold m in W. revert W. generalize (nth j (g_cols g) []). intros col W.
      apply sort_by_fwf.
      * unfold colf. rewrite map_map. apply (wfs_nodup_map m col d); assumption.
      * intros p v Hp. unfold colf in Hp. apply in_map_iff in Hp. destruct Hp as ([i w] & E & Hi). injection E as <- <-.
        destruct (den_In _ _ _ _ _ W Hi) as (_ & Nw & Li). split; [|assumption]. apply D. lia.
    + intros p r Lp. change (g_rows g') with m in Lp. destruct (DS p Lp) as (i & Li & <-). rewrite RT by assumption. now apply PR.
  - apply (corr_same g g' (fun i => i)); auto.
  - intros i Li. split; [now apply D|]. split; [now apply RT|]. split; [now apply RB|]. intros x. now apply RV.
  - intros k Lk. rewrite HC by assumption. destruct k as [|[|[|[|k]]]]; reflexivity || lia.
Qed.

(** ** The whole of standardize *)
Record standardized (g g' : general) (F G : vec -> vec) : Prop := mk_standardized {
  sd_back : forall x, gfeasible g' x -> gfeasible g (F x);
  sd_forth : forall x, gfeasible g x -> gfeasible g' (G x);
  sd_cost : forall x, gcost g' x = match g_objective g with
     | Minimize => gcost g (F x) | Maximize => g_fixed g' + g_fixed g' - gcost g (F x) end;
  sd_inv : forall x j, (j < nr_vars g)%nat -> F (G x) j = x j;
  sd_one : no_free g -> forall x j, (j < nr_vars g')%nat -> G (F x) j = x j;
  sd_values : forall x val, completed g' x val <-> completed g (F x) val;
  sd_names : map fst (g_orig g') = map fst (g_orig g);
  sd_removed : forall o name r, nth_error (g_orig g') o = Some (name, Removed r) -> nth_error (g_orig g) o = Some (name, Removed r);
  sd_ext : forall x y, (forall j, (j < nr_vars g')%nat -> x j = y j) -> forall j, (j < nr_vars g)%nat -> F x j = F y j;
  sd_ext' : forall x y, (forall j, (j < nr_vars g)%nat -> x j = y j) -> forall j, (j < nr_vars g')%nat -> G x j = G y j;
  sd_mix : forall a x y j, (j < nr_vars g)%nat -> F (mix a x y) j = mix a (F x) (F y) j
}.

Lemma standardize_spec g : general_ok g -> exists g' c F G, standardize g = Ok (g', c) /\ general_ok g' /\ standard_shape g' c /\
  standardized g g' F G.
Proof.
  intros P. unfold standardize.
  destruct (transform_corr g P) as (g1 & E1 & P1 & L1 & F & G & C1). rewrite E1. cbn [bind].
  destruct (make_b_corr g1 P1) as (g2 & E2 & P2 & V2 & X2 & B2 & C2). rewrite E2. cbn [bind].
  pose proof (min_facts g2) as M. cbv zeta in M. destruct M as (MO & MN & MV & MX & MB & MR & MP & MF & MC & MOr & MCost).
  set (g3 := make_minimization g2) in *.
  destruct (reorder_corr g3 (MP P2)) as (g4 & c & E4 & P4 & V4 & X4 & C4 & D4 & K4 & R4). rewrite E4.
  assert (C12 : corr (no_free g) g g2 F G).
  { apply (corr_trans _ g g1 g2 F G (fun x => x) (fun x => x)); [exact C1|]. eapply corr_weaken; [|exact C2]. trivial. }
  assert (N42 : nr_vars g4 = nr_vars g2) by (unfold nr_vars in *; rewrite V4; exact MN).
  assert (V4' : forall j, var g4 j = var g3 j) by (intros; unfold var; now rewrite V4).
  assert (V2' : forall j, var g2 j = var g1 j) by (intros; unfold var; now rewrite V2).
  assert (N21 : nr_vars g2 = nr_vars g1) by (unfold nr_vars; now rewrite V2).
  exists g4, c, F, G. split; [reflexivity|]. split; [exact P4|]. split.
  - assert (Hc : forall k, (k < 4)%nat -> count_of c k = cnt k (g_types g3)) by exact K4.
    pose proof (Hc 0%nat ltac:(lia)) as H0. pose proof (Hc 1%nat ltac:(lia)) as H1. pose proof (Hc 2%nat ltac:(lia)) as H2.
    pose proof (Hc 3%nat ltac:(lia)) as H3. cbn [count_of] in H0, H1, H2, H3.
    assert (TT : (n_equal c + n_range c + n_less c + n_greater c)%nat = g_rows g3).
    { rewrite H0, H1, H2, H3. rewrite <- (gok_types _ (MP P2)). apply cnt_total. }
    assert (FIND : forall k q, (k < 4)%nat -> (q < count_of c k)%nat ->
       type_rank (row_type g4 (below k (g_types g3) + q)) = k).
    { intros k q Lk Lq. rewrite Hc in Lq by assumption. destruct (cnt_find (g_types g3) k q Lq) as (i & Li & R & Q).
      rewrite (gok_types _ (MP P2)) in Li. destruct (D4 i Li) as (_ & T & _).
      unfold dst in T. rewrite R, Q in T. rewrite T. exact R. }
    constructor.
    + rewrite (co_dir _ _ _ _ _ C4). exact MO.
    + rewrite R4. now rewrite TT.
    + intros j Lj. rewrite V4'. rewrite (proj1 (MV j)), V2'. apply L1. lia.
    + intros p Lp. rewrite R4 in Lp.
      destruct (dst_surj (g_types g3) p) as (i & Li & <-); [now rewrite (gok_types _ (MP P2))|].
      rewrite (gok_types _ (MP P2)) in Li. destruct (D4 i Li) as (_ & _ & B & _). rewrite B, MB. apply B2. now rewrite <- MR.
    + intros i Li. pose proof (FIND 0%nat i ltac:(lia) Li) as T. cbn [below] in T. rewrite Nat.add_0_l in T.
      destruct (row_type g4 i); cbn in T; congruence || discriminate.
    + intros i Li. pose proof (FIND 1%nat i ltac:(lia) Li) as T. cbn [below] in T. rewrite <- H0 in T.
      destruct (row_type g4 (n_equal c + i)); cbn in T; try discriminate. eexists; reflexivity.
    + intros i Li. pose proof (FIND 2%nat i ltac:(lia) Li) as T. cbn [below] in T. rewrite <- H0, <- H1 in T.
      destruct (row_type g4 (n_equal c + n_range c + i)); cbn in T; congruence || discriminate.
    + intros i Li. pose proof (FIND 3%nat i ltac:(lia) Li) as T. cbn [below] in T. rewrite <- H0, <- H1, <- H2 in T.
      destruct (row_type g4 (n_equal c + n_range c + n_less c + i)); cbn in T; congruence || discriminate.
  - constructor.
    + intros x H. apply (co_back _ _ _ _ _ C12). apply MF. exact (co_back _ _ _ _ _ C4 x H).
    + intros x H. apply (co_forth _ _ _ _ _ C4 (G x)). apply MF. exact (co_forth _ _ _ _ _ C12 x H).
    + intros x. rewrite (co_cost _ _ _ _ _ C4), MCost, X4, MX. rewrite (co_dir _ _ _ _ _ C12).
      destruct (g_objective g); now rewrite (co_cost _ _ _ _ _ C12).
    + exact (co_inv _ _ _ _ _ C12).
    + intros H x j Lj. rewrite N42 in Lj. now apply (co_one _ _ _ _ _ C12).
    + intros x val. rewrite (co_values _ _ _ _ _ C4), MC. apply (co_values _ _ _ _ _ C12).
    + rewrite (co_names _ _ _ _ _ C4), MOr. apply (co_names _ _ _ _ _ C12).
    + intros o name r H. apply (co_removed _ _ _ _ _ C12). rewrite <- MOr. now apply (co_removed _ _ _ _ _ C4).
    + intros x y H. apply (co_ext _ _ _ _ _ C12). intros j Lj. apply H. now rewrite N42.
    + intros x y H j Lj. apply (co_ext' _ _ _ _ _ C12); [assumption|]. now rewrite <- N42.
    + exact (co_mix _ _ _ _ _ C12).
Qed.

(** ** Translating solutions back *)
Lemma reshift_one_spec n z j v : wfs n z -> (j < n)%nat ->
  wfs n (reshift_one z (j, v)) /\ forall i, den (reshift_one z (j, v)) i = if Nat.eqb i j then own_value v (den z j) else den z i.
Proof.
  intros W L. destruct (shift_value_fwf n z j (- v_shift v) W L) as [W1 D1]. unfold reshift_one, own_value.
  set (z1 := shift_value z j (- v_shift v)) in *.
  destruct (v_flipped v).
  - destruct (sget z1 j) as [x|] eqn:E.
    + destruct (sget_some n z1 j x W1 E) as [Dx Nx].
      assert (Nx' : - x <> 0) by (intro C; apply Nx; rewrite <- (Qcopp_involutive x), C; ring).
      destruct (sset_fwf 0 n z1 j (- x) W1 ltac:(lia) Nx') as [W2 D2]. split; [exact W2|]. intros i. rewrite D2.
      destruct (Nat.eqb_spec i j) as [->|N].
      * rewrite <- Dx, D1, Nat.eqb_refl. ring.
      * rewrite D1, (proj2 (Nat.eqb_neq i j)) by assumption. ring.
    + apply (sget_none n) in E; [|exact W1]. split; [exact W1|]. intros i. rewrite D1. destruct (Nat.eqb_spec i j) as [->|N]; [|ring].
      rewrite D1, Nat.eqb_refl in E. qlra.
  - split; [exact W1|]. intros i. rewrite D1. destruct (Nat.eqb_spec i j) as [->|N]; [|ring]. ring.
Qed.
Lemma reshift_fold n vars : forall k z, wfs n z -> (k + length vars <= n)%nat ->
  let z' := fold_left reshift_one (number_from k vars) z in
  wfs n z' /\ forall i, den z' i = if Nat.leb k i && Nat.ltb i (k + length vars) then own_value (nth (i - k) vars no_variable) (den z i) else den z i.
Proof.
  induction vars as [|v vars IH]; intros k z W L; cbn [number_from fold_left length].
  - split; [exact W|]. intros i. destruct (Nat.leb_spec k i), (Nat.ltb_spec i (k + 0)); cbn; try reflexivity; lia.
  - cbn [length] in L. destruct (reshift_one_spec n z k v W ltac:(lia)) as [W1 D1].
    destruct (IH (Datatypes.S k) _ W1 ltac:(lia)) as [W2 D2]. split; [exact W2|]. intros i. rewrite D2, D1.
    destruct (Nat.eqb_spec i k) as [->|N].
    + rewrite (proj2 (Nat.leb_gt (Datatypes.S k) k)) by lia. cbn [andb].
      rewrite (proj2 (Nat.leb_le k k)) by lia. rewrite (proj2 (Nat.ltb_lt k _)) by lia. rewrite Nat.sub_diag. reflexivity.
    + destruct (Nat.leb_spec (Datatypes.S k) i) as [L1|L1].
      * rewrite (proj2 (Nat.leb_le k i)) by lia. cbn [andb].
        replace (k + Datatypes.S (length vars))%nat with (Datatypes.S k + length vars)%nat by lia.
        destruct (Nat.ltb i (Datatypes.S k + length vars)); [|reflexivity].
        replace (i - k)%nat with (Datatypes.S (i - Datatypes.S k)) by lia. reflexivity.
      * rewrite (proj2 (Nat.leb_gt k i)) by lia. reflexivity.
Qed.
Lemma reshift_spec g z : wfs (nr_vars g) z -> wfs (nr_vars g) (reshift (g_vars g) z) /\
  forall j, (j < nr_vars g)%nat -> den (reshift (g_vars g) z) j = own_value (var g j) (den z j).
Proof.
  intros W. destruct (reshift_fold (nr_vars g) (g_vars g) 0 z W ltac:(unfold nr_vars; lia)) as [W1 D1]. split; [exact W1|].
  intros j Lj. unfold reshift. rewrite D1. cbn [Nat.leb andb Nat.add]. unfold nr_vars in Lj.
  rewrite (proj2 (Nat.ltb_lt j _)) by assumption. now rewrite Nat.sub_0_r.
Qed.

Lemma fold_left_plus l : forall a, fold_left Qcplus l a = a + fold_right Qcplus 0 l.
Proof. induction l as [|x l IH]; intros a; cbn; [ring|]. rewrite IH. ring. Qed.

Lemma mapM_mono {A B} (f h : A -> res B) : forall l ys, (forall x y, In x l -> f x = Ok y -> h x = Ok y) -> mapM f l = Ok ys -> mapM h l = Ok ys.
Proof.
  induction l as [|x l IH]; intros ys H E; cbn [mapM] in *; [assumption|]. inv_ok.
  rewrite (H x r (or_introl eq_refl) E0). cbn [bind]. rewrite (IH r0); [reflexivity| |assumption]. intros; apply H; auto. now right.
Qed.
Lemma value_mono orig z : forall fuel o v, value_with_bfs fuel orig z o = Ok v -> value_with_bfs (Datatypes.S fuel) orig z o = Ok v.
Proof.
  induction fuel as [|fuel IH]; intros o v E; [discriminate|].
  cbn [value_with_bfs] in E. change (value_with_bfs (Datatypes.S (Datatypes.S fuel)) orig z o) with
    (let* entry := index orig o in match snd entry with
      | Active j => Ok (match sget z j with Some v => v | None => 0 end)
      | ActiveFree jp jn => Ok (match sget z jp, sget z jn with None, None => 0 | Some p, None => p | None, Some n => - n | Some p, Some n => p - n end)
      | Removed (Solved v) => Ok v
      | Removed (FunctionOf constant coefficients) =>
          let* parts := mapM (fun '(j, c) => let* v := value_with_bfs (Datatypes.S fuel) orig z j in Ok (v * c)) coefficients in
          Ok (- fold_left Qcplus parts 0 + constant) end).
  destruct (index orig o) as [[name e]| |]; cbn [bind snd] in *; try discriminate.
  destruct e as [j|p n|[w|c l]]; try assumption.
  inv_ok. rewrite (mapM_mono (fun '(j, c0) => let* v := value_with_bfs fuel orig z j in Ok (v * c0)) _ l r); [reflexivity| |exact E0].
  intros [j a] y _ Ey. inv_ok. now rewrite (IH _ _ E).
Qed.

Lemma value_spec g z val fuel : wfs (nr_vars g) z -> general_ok g ->
  (forall o, (o < length (g_orig g))%nat -> value_with_bfs fuel (g_orig g) (reshift (g_vars g) z) o = Ok (val o)) ->
  completed g (den z) val.
Proof.
  intros W P H o name e He. destruct (reshift_spec g z W) as [W1 D1]. set (z' := reshift (g_vars g) z) in *.
  assert (Lo : (o < length (g_orig g))%nat) by (apply nth_error_Some; congruence).
  pose proof (value_mono _ _ _ _ _ (H o Lo)) as E. cbn [value_with_bfs] in E.
  rewrite (proj2 (index_ok _ _ _) He) in E. cbn [bind snd] in E.
  assert (SG : forall j, (match sget z' j with Some v => v | None => 0 end) = den z' j).
  { intros j. rewrite (sget_spec _ _ _ W1). destruct (qzero (den z' j)) eqn:Z; [qb; congruence|reflexivity]. }
  destruct e as [j|p n|[w|c l]]; cbn [entry_value].
  - injection E as E. rewrite SG in E. rewrite <- E. apply D1. now apply (gok_active _ P o name).
  - injection E as E. destruct (gok_split _ P o name p n He) as (Lp & Ln & _). rewrite <- !D1 by assumption. rewrite <- E, <- !SG.
    destruct (sget z' p), (sget z' n); ring.
  - now injection E as ->.
  - inv_ok. match goal with H : - fold_left _ _ _ + _ = _ |- _ => rewrite fold_left_plus in H; rename H into HV end.
    assert (S : fold_right Qcplus 0 r = combination l val).
    { clear - E0 H. revert r E0. induction l as [|[j a] l IH]; intros r E; cbn [mapM] in E.
      - inv_ok. reflexivity.
      - destruct (value_with_bfs fuel (g_orig g) z' j) as [v| |] eqn:Ev; try discriminate. cbn [bind] in E. inv_ok.
        cbn [fold_right combination]. rewrite (IH _ E0).
        assert (Lj : (j < length (g_orig g))%nat).
        { destruct fuel as [|f]; [discriminate|]. cbn [value_with_bfs] in Ev. destruct (index (g_orig g) j) eqn:Ei; try discriminate.
          apply index_ok in Ei. apply nth_error_Some. congruence. }
        rewrite (H j Lj) in Ev. injection Ev as <-. ring. }
    rewrite S in HV. rewrite <- HV. ring.
Qed.

Lemma full_solution_spec fuel g z s : general_ok g -> wfs (nr_vars g) z -> full_solution fuel g z = Ok s ->
  exists val, completed g (den z) val /\ s_values s = combine (map fst (g_orig g)) (map val (range 0 (length (g_orig g)))) /\
    s_objective s = gcost g (den z).
Proof.
  intros P W E. unfold full_solution in E. inv_ok. 
  set (val := fun o => nth o r0 0).
  exists val. cbn [s_values s_objective]. destruct (mapM_ok _ _ _ E1) as [L N].
  assert (LR : length (range 0 (length (g_orig g))) = length (g_orig g)) by (unfold range; rewrite seq_length; lia).
  assert (V : forall o, (o < length (g_orig g))%nat -> value_with_bfs fuel (g_orig g) (reshift (g_vars g) z) o = Ok (val o)).
  { intros o Lo. destruct (N o o) as (y & Ey & Ny).
    - unfold range. rewrite Nat.sub_0_r. rewrite (nth_error_nth' _ 0%nat) by (rewrite seq_length; assumption). now rewrite seq_nth.
    - rewrite Ey. unfold val. now rewrite (nth_error_nth _ _ 0 Ny). }
  split; [now apply (value_spec g z val fuel)|]. split.
  - f_equal. apply nth_ext with (d := 0) (d' := 0).
    + rewrite map_length. congruence.
    + intros o Lo. rewrite L, LR in Lo. rewrite (nth_indep (map val _) 0 (val 0%nat)) by (rewrite map_length, LR; assumption).
      rewrite map_nth. unfold range. rewrite Nat.sub_0_r, seq_nth by assumption. reflexivity.
  - rewrite fold_left_plus.
    assert (S : fold_right Qcplus 0 r = esum z (fun j v => v * v_cost (var g j))).
    { clear - E0 W. assert (B : forall j v, In (j, v) z -> (j < nr_vars g)%nat) by (intros j v; now apply (wfs_In_lt (nr_vars g))). clear W.
      revert r E0. induction z as [|[j x] z IH]; intros r E; cbn [mapM] in E; [inv_ok; reflexivity|].
      rewrite (index_nth _ _ no_variable) in E by (apply (B j x); now left). cbn [bind] in E. inv_ok.
      cbn [fold_right esum]. rewrite (IH (fun j v H => B j v (or_intror H)) _ E0). reflexivity. }
    rewrite S. unfold gcost. rewrite (esum_den (nr_vars g) z (fun j => v_cost (var g j))).
    + rewrite (sum_ext _ _ (fun j => v_cost (var g j) * den z j)) by (intros; ring). ring.
    + intros i v H. exact (wfs_In_lt _ _ _ _ W H).
Qed.

(** the translation returns when removed variables are determined by others without a cycle *)
Definition acyclic (orig : list (string * original)) : Prop :=
  exists rank : nat -> nat, forall o name c l j a, nth_error orig o = Some (name, Removed (FunctionOf c l)) -> In (j, a) l ->
    (j < length orig)%nat /\ (rank j < rank o)%nat.
Lemma value_returns orig z (rank : nat -> nat) : (forall o name c l j a, nth_error orig o = Some (name, Removed (FunctionOf c l)) -> In (j, a) l ->
    (j < length orig)%nat /\ (rank j < rank o)%nat) ->
  forall fuel o, (rank o < fuel)%nat -> (o < length orig)%nat -> exists v, value_with_bfs fuel orig z o = Ok v.
Proof.
  intros R. induction fuel as [|fuel IH]; intros o Lr Lo; [lia|]. cbn [value_with_bfs].
  destruct (nth_error orig o) as [[name e]|] eqn:E; [|apply nth_error_None in E; lia].
  rewrite (proj2 (index_ok _ _ _) E). cbn [bind snd]. destruct e as [j|p n|[w|c l]]; try (eexists; reflexivity).
  destruct (mapM_total (fun '(j, c0) => let* v := value_with_bfs fuel orig z j in Ok (v * c0)) l) as [ys Ey].
  { intros [j a] Hj. destruct (R o name c l j a E Hj) as [Lj Rj]. destruct (IH j ltac:(lia) Lj) as [v Ev]. rewrite Ev. eexists; reflexivity. }
  rewrite Ey. eexists; reflexivity.
Qed.
Lemma full_solution_returns g z : general_ok g -> wfs (nr_vars g) z -> acyclic (g_orig g) ->
  exists fuel0, forall fuel, (fuel0 <= fuel)%nat -> exists s, full_solution fuel g z = Ok s.
Proof.
  intros P W [rank R].
  assert (B : exists m, forall o, (o < length (g_orig g))%nat -> (rank o < m)%nat).
  { generalize (length (g_orig g)). induction n as [|n [m IH]]; [exists 0%nat; lia|]. exists (Datatypes.S (m + rank n)). intros o Lo.
    destruct (Nat.eq_dec o n) as [->|N]; [lia|]. specialize (IH o). lia. }
  destruct B as [m B]. exists m. intros fuel Lf. unfold full_solution.
  destruct (mapM_total (fun '(j, x) => let* v := index (g_vars g) j in Ok (x * v_cost v)) z) as [ys Ey].
  { intros [j x] Hj. rewrite (index_nth _ _ no_variable) by exact (wfs_In_lt _ _ _ _ W Hj). eexists; reflexivity. }
  rewrite Ey. cbn [bind].
  destruct (mapM_total (value_with_bfs fuel (g_orig g) (reshift (g_vars g) z)) (range 0 (length (g_orig g)))) as [vs Ev].
  { intros o Ho. apply In_range in Ho. apply (value_returns _ _ rank R); [|lia]. specialize (B o). lia. }
  rewrite Ev. eexists; reflexivity.
Qed.

Lemma fresh_completed g x val : fresh g -> (completed g x val <-> forall j, (j < nr_vars g)%nat -> val j = x j).
Proof.
  intros (L & A & S & _). unfold completed. split.
  - intros H j Lj. destruct (A j Lj) as [name E]. rewrite (H j name _ E). cbn [entry_value]. unfold own_value.
    destruct (S j Lj) as [-> ->]. ring.
  - intros H o name e E. assert (Lo : (o < nr_vars g)%nat) by (rewrite <- L; apply nth_error_Some; congruence).
    destruct (A o Lo) as [name' E']. rewrite E in E'. injection E' as -> ->. cbn [entry_value]. unfold own_value.
    destruct (S o Lo) as [-> ->]. rewrite H by assumption. ring.
Qed.
Lemma fresh_acyclic g : fresh g -> acyclic (g_orig g).
Proof.
  intros (L & A & _). exists (fun _ => 0%nat). intros o name c l j a E. exfalso.
  assert (Lo : (o < nr_vars g)%nat) by (rewrite <- L; apply nth_error_Some; congruence). destruct (A o Lo) as [n' E']. congruence.
Qed.
