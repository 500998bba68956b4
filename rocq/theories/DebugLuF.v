(** The assertions of the LU factorization hold whenever the matrix has an inverse, so the checked
    factorization [lu_invert_d] is the plain one. *)
From Verif Require Export DebugLuC.
Local Open Scope Qc_scope.

Lemma fwf_rows_sorted m rows : (forall i, (i < length rows)%nat -> wfs m (row rows i)) -> rows_sorted rows = true.
Proof.
  intros H. apply forallb_forall. intros r Hr. destruct (In_nth _ _ [] Hr) as (i & Li & <-).
  apply (fwf_sorted m _ 0), H. assumption.
Qed.
Lemma positive_skipn (l : list nat) k m : length l = m -> (forall i, (k <= i < m)%nat -> (0 < nth i l 0)%nat) ->
  all_positive (skipn k l) = true.
Proof.
  intros L H. apply forallb_forall. intros x Hx. apply Nat.ltb_lt.
  destruct (In_nth _ _ 0%nat Hx) as (i & Li & <-). rewrite skipn_length in Li.
  specialize (H (k + i)%nat ltac:(lia)). rewrite <- (firstn_skipn k l) in H.
  rewrite app_nth2 in H by (rewrite firstn_length; lia). rewrite firstn_length in H.
  replace (k + i - Nat.min k (length l))%nat with i in H by lia. exact H.
Qed.
Lemma full_new_same m l : (0 < m)%nat -> perm_ok m l -> full_new_d l = Ok (full_new l).
Proof.
  intros M (L & N & H). unfold full_new_d. rewrite asserted.
  - destruct l as [|x t] eqn:E; [cbn in L; lia|]. rewrite asserted; [reflexivity|].
    apply below_In. rewrite L. exact H.
  - apply Nat.eqb_eq. unfold set_size. now rewrite nodup_fixed_point.
Qed.

Section Step.
Variables (m : nat) (N B : mat).
Hypothesis NB : is_inverse m N B.

Lemma all_wfs k s i : finv m B k s -> (k <= m)%nat -> (i < m)%nat -> wfs m (row (s_rows s) i).
Proof using.
  intros V Lk Li. destruct (Nat.lt_ge_cases i k) as [C|C].
  - apply fwf_weaken with i; [lia|]. now apply (v_done _ _ _ _ V).
  - apply fwf_weaken with k; [lia|]. apply (v_todo _ _ _ _ V). lia.
Qed.

(** no column vanishes in the rows still to do *)
Lemma column_nonzero k s j : finv m B k s -> (k <= j < m)%nat ->
  (0 < csum k (m - k) (fun x => nz (den (row (s_rows s) x) j)))%nat.
Proof.
  intros V Lj. apply Nat.nle_gt. intros C.
  assert (E : forall i, (k <= i < m)%nat -> den (row (s_rows s) i) j = 0).
  { intros i Li. pose proof (csum_ge k (fun x => nz (den (row (s_rows s) x) j)) i (m - k) ltac:(lia)) as G.
    cbn beta in G. destruct (qzero (den (row (s_rows s) i) j)) eqn:Z; qb; [assumption|]. rewrite (nz_1 _ Z) in G. lia. }
  clear C.
  destruct (v_rp _ _ _ _ V) as (Lr & Nr & Br). destruct (v_cp _ _ _ _ V) as (Lc & Nc & Bc).
  pose proof (full_new_spec m _ Lr Nr Br) as F.
  set (cp := fun j => nth j (s_cp s) 0%nat). set (rp := fun j => nth j (s_rp s) 0%nat).
  set (y := fun r => N (cp j) r).
  assert (Lcj : (cp j < m)%nat) by (apply perm_nth; [apply V|lia]).
  assert (HB : forall c, (c < m)%nat -> sum m (fun i => y (rp i) * B (rp i) c) = delta (cp j) c).
  { intros c Lc'. rewrite (sum_perm m rp (fun j => nth j (f_bw (full_new (s_rp s))) 0%nat) (fun i => y i * B i c)).
    - now apply NB.
    - apply (fu_f _ _ F).
    - apply (fu_b _ _ F). }
  set (z := fun t => y (rp t) + sum m (fun i => y (rp i) * den (lrow (s_low s) i) t)).
  assert (H : forall c, (c < m)%nat -> sum m (fun t => z t * den (row (s_rows s) t) c) = delta (cp j) (cp c)).
  { intros c Lc'. rewrite <- HB by (apply perm_nth; [apply V|assumption]).
    rewrite (sum_ext m (fun i => y (rp i) * B (rp i) (cp c)) (fun i => y (rp i) * den (row (s_rows s) i) c +
       y (rp i) * sum m (fun t => den (lrow (s_low s) i) t * den (row (s_rows s) t) c))).
    2:{ intros i Li. unfold rp at 2, cp. rewrite (v_eq _ _ _ _ V) by assumption. ring. }
    rewrite sum_plus, (dot_assoc m m (fun i => y (rp i)) (fun i t => den (lrow (s_low s) i) t) (fun t => den (row (s_rows s) t) c)).
    rewrite <- sum_plus. apply sum_ext. intros t Lt. unfold z.
    rewrite Qcmult_plus_distr_l. reflexivity. }
  assert (Z : forall c, (c < k)%nat -> z c = 0).
  { intros c. induction c as [c IH] using (well_founded_induction lt_wf). intros Lk.
    assert (S1 : sum m (fun t => z t * den (row (s_rows s) t) c) = z c * den (row (s_rows s) c) c).
    { rewrite (sum_ext m _ (fun t => delta c t * (z t * den (row (s_rows s) t) c))).
      - rewrite sum_delta_l by lia. reflexivity.
      - intros t Lt. destruct (Nat.eq_dec t c) as [->|Nt]; [rewrite delta_same; ring|]. rewrite delta_diff by congruence.
        destruct (Nat.lt_ge_cases t c) as [C1|C1]; [rewrite IH by lia; ring|].
        assert (den (row (s_rows s) t) c = 0) as ->; [|ring].
        destruct (Nat.lt_ge_cases t k) as [C2|C2].
        + apply (den_below t m); [now apply (v_done _ _ _ _ V)|lia].
        + apply (den_below k m); [now apply (v_todo _ _ _ _ V)|lia]. }
    rewrite H in S1 by lia. rewrite delta_diff in S1.
    - destruct (v_done _ _ _ _ V c Lk) as [_ D]. symmetry in S1. apply Qcmult_integral in S1. tauto.
    - intros E'. apply (NoDup_nth (s_cp s) 0%nat) in E'; try assumption; lia. }
  specialize (H j ltac:(lia)). rewrite delta_same in H. rewrite sum_zero in H; [discriminate H|].
  intros t Lt. destruct (Nat.lt_ge_cases t k) as [C|C]; [rewrite Z by assumption; ring|].
  rewrite E by lia. ring.
Qed.

Lemma choose_pivot_same k s : (k < m)%nat -> finv m B k s ->
  choose_pivot_d (s_nr s) (s_nc s) (s_rows s) k = choose_pivot (s_nr s) (s_nc s) (s_rows s) k.
Proof.
  intros Lk V. pose proof (v_cnt _ _ _ _ V) as [C1 C2 C3 C4]. unfold choose_pivot_d. rewrite (v_lr _ _ _ _ V).
  rewrite !asserted; try reflexivity.
  - apply (fwf_rows_sorted m). intros i Li. apply (all_wfs k); [assumption|lia|]. rewrite <- (v_lr _ _ _ _ V). exact Li.
  - apply (positive_skipn _ k m C2). intros j Lj. rewrite C4 by assumption. now apply column_nonzero.
  - apply (positive_skipn _ k m C1). intros i Li. rewrite C3 by assumption.
    destruct (row_nonzero m N B NB k s i V Li) as (j & _ & Nj). destruct (row (s_rows s) i); [now contradiction Nj|cbn; lia].
  - now apply Nat.eqb_eq.
  - now apply Nat.eqb_eq.
  - apply Nat.ltb_lt. lia.
Qed.

Lemma fswap_same k s pr pc : (k < m)%nat -> finv m B k s -> (k <= pr < m)%nat -> (k <= pc < m)%nat ->
  fswap_d s pr pc k = fswap s pr pc k.
Proof using.
  intros Lk V Lr Lc. pose proof (v_cnt _ _ _ _ V) as [C1 C2 C3 C4]. unfold fswap_d. cbv zeta.
  rewrite (v_lr _ _ _ _ V), (proj1 (v_rp _ _ _ _ V)), (proj1 (v_cp _ _ _ _ V)), C1, C2, (v_ll _ _ _ _ V).
  rewrite !Nat.eqb_refl, !(proj2 (Nat.ltb_lt _ _)), !(proj2 (Nat.leb_le _ _)) by lia. cbn [andb assert bind].
  unfold fswap.
  assert (T : forall s1, (forall i, (i < m)%nat -> wfs m (row (s_rows s1) i)) -> length (s_rows s1) = m ->
     (if Nat.eqb pc k then Ok s1
      else let* cp := swap_list (s_cp s1) pc k in
       let* nc := swap_list (s_nc s1) pc k in
       let* _ := sw_new_d pc k m in
       let* rows := mapM (sw_sorted_d pc k m) (s_rows s1) in
       Ok (mk_fstate (s_rp s1) cp (s_low s1) (s_nr s1) nc rows)) =
     (if Nat.eqb pc k then Ok s1
      else let* cp := swap_list (s_cp s1) pc k in
       let* nc := swap_list (s_nc s1) pc k in
       let* rows := mapM (sw_sorted pc k) (s_rows s1) in
       Ok (mk_fstate (s_rp s1) cp (s_low s1) (s_nr s1) nc rows))).
  { intros s1 W L. destruct (Nat.eqb pc k); [reflexivity|].
    destruct (swap_list (s_cp s1) pc k); [cbn [bind]|reflexivity|reflexivity].
    destruct (swap_list (s_nc s1) pc k); [cbn [bind]|reflexivity|reflexivity].
    unfold sw_new_d. rewrite !(proj2 (Nat.ltb_lt _ _)) by lia. cbn [andb assert bind].
    rewrite (mapM_same (sw_sorted_d pc k m) (sw_sorted pc k)); [reflexivity|].
    intros r Hr. destruct (In_nth _ _ [] Hr) as (i & Li & <-). apply sw_sorted_same; try lia. apply W. rewrite <- L. exact Li. }
  assert (W0 : forall i, (i < m)%nat -> wfs m (row (s_rows s) i)) by (intros i; apply (all_wfs k); [assumption|lia]).
  destruct (Nat.eqb_spec pr k) as [->|Np]; [cbn [bind]; apply T; [assumption|apply V]|].
  destruct (swap_list (s_rp s) pr k) as [rp| |]; [cbn [bind]|reflexivity|reflexivity].
  destruct (swap_list (s_nr s) pr k) as [nr| |]; [cbn [bind]|reflexivity|reflexivity].
  pose proof (v_lr _ _ _ _ V) as Lrow.
  destruct (swap_list_spec (s_rows s) pr k []) as (rows & -> & L3 & V3); try lia. cbn [bind].
  rewrite (proj2 (Nat.eqb_neq pr 0)) by lia. cbn [andb bind].
  assert (A : (if Nat.ltb 0 pr && Nat.eqb k 0 then let* r := index (s_low s) (pr - 1) in assert (Nat.eqb (length r) 0) else Ok tt) = Ok tt).
  { destruct (Nat.eqb_spec k 0) as [K|K]; [|now rewrite Bool.andb_false_r]. rewrite (proj2 (Nat.ltb_lt 0 pr)) by lia. cbn [andb].
    rewrite (index_Ok (s_low s) (pr - 1) []) by (rewrite (v_ll _ _ _ _ V); lia). cbn [bind].
    pose proof (v_low _ _ _ _ V pr) as X. rewrite K in X. cbn [Nat.min] in X. destruct pr as [|p]; [lia|]. cbn [lrow] in X.
    replace (S p - 1)%nat with p by lia. destruct (nth p (s_low s) []) as [|[j x] t]; [reflexivity|]. destruct X. lia. }
  rewrite A. cbn [bind].
  destruct (if Nat.ltb 0 pr && Nat.ltb 0 k then _ else _) as [low| |]; [cbn [bind]|reflexivity|reflexivity].
  apply T; cbn [s_rows]; [|lia]. intros i Li. unfold row. rewrite V3. apply W0. apply sw_forward_lt; lia.
Qed.

(** the tail of the checked loop body never fails *)
Lemma fstep_same k s : (k < m)%nat -> finv m B k s -> fstep_d s k = fstep s k.
Proof.
  intros Lk V. unfold fstep_d, fstep. cbv zeta. rewrite (choose_pivot_same k s Lk V), (v_lr _ _ _ _ V).
  destruct (choose_pivot_some m B k s Lk V (candidates_some m N B NB k s Lk V)) as (pr & pc & Ech & Lr & Lc & Nd).
  rewrite Ech. cbn [bind fst snd]. rewrite (fswap_same k s pr pc) by assumption.
  destruct (fswap_spec m B k s pr pc Lk V Lr Lc) as (s1 & Esw & V1 & D1). rewrite Esw. cbn [bind].
  assert (Nk : den (row (s_rows s1) k) k <> 0).
  { rewrite D1. unfold sw_forward. rewrite Nat.eqb_refl. destruct (Nat.eqb_spec k pc) as [<-|]; assumption. }
  assert (RN : forall i, (k < i < m)%nat -> row (s_rows s1) i <> []).
  { intros i Li Z. destruct (row_nonzero m N B NB k s1 i V1 ltac:(lia)) as (j & _ & Nj). apply Nj. now rewrite Z. }
  clear V D1 Nd Lr Lc Ech Esw pr pc s.
  destruct V1 as [Vrp Vcp Vlr Vd Vt Vll Vl Ve Vc].
  rewrite (index_Ok (s_rows s1) k []) by lia. fold (row (s_rows s1) k). cbn [bind].
  pose proof (Vt k ltac:(lia)) as Wk. destruct (row (s_rows s1) k) as [|[j pv] t] eqn:Ek; [now contradiction Nk|].
  destruct (fwf_head k m _ Wk) as [(v & C & E & Nv & _ & HC)|W'].
  2:{ exfalso. apply Nk. apply (den_below (S k) m); assumption || lia. }
  injection E as -> -> ->. clear Nk.
  destruct Vc as [C1 C2 C3 C4].
  assert (Lck : nth k (s_nr s1) 0%nat = length (row (s_rows s1) k)) by (apply C3; lia).
  destruct (drop_counts_spec k ((k, v) :: C) k m (s_nr s1) (s_nc s1) Wk) as (nr1 & nc1 & E1 & L1 & L2 & V1 & V2); try lia.
  { rewrite Lck, Ek. lia. }
  { intros j Nj. pose proof (fwf_den_ge k m _ j Wk Nj). rewrite C4 by lia.
    rewrite <- (nz_1 _ Nj), <- Ek. apply (csum_ge k (fun x => nz (den (row (s_rows s1) x) j)) k). lia. }
  rewrite E1. cbn [bind fst snd index ofopt nth_error].
  assert (CO : counts_ok (S k) k m (s_rows s1) nr1 nc1).
  { split; try lia.
    - intros i Li. rewrite V1. rewrite (proj2 (Nat.eqb_neq i k)) by lia. apply C3. lia.
    - intros j Lj. rewrite V2, C4 by lia. replace (m - k)%nat with (S (m - S k)) by lia. rewrite csum_S, Ek. lia. }
  unfold heads_d, range.
  destruct (heads_fold m k v Lk Nv (m - S k) (S k) (s_rows s1) nr1 nc1 []) as (rows2 & nr2 & nc2 & E2 & L3 & CO2 & V3 & V4); try lia.
  { intros i Li. split; [apply Vt; lia|]. apply RN. lia. }
  { assumption. }
  rewrite E2. cbn [bind app]. set (rho := fun i => den (row (s_rows s1) i) k / v).
  assert (Er : flat_map (ratio_at k (s_rows s1) v) (seq (S k) (m - S k)) =
     flat_map (fun i => if qzero (rho i) then [] else [(i, rho i)]) (seq (S k) (m - S k))).
  { rewrite !flat_map_concat_map. f_equal. apply map_ext. intros i. unfold ratio_at, rho.
    destruct (qzero (den (row (s_rows s1) i) k)) eqn:Q1, (qzero (den (row (s_rows s1) i) k / v)) eqn:Q2; qb; try reflexivity.
    - exfalso. apply Q2. rewrite Q1. unfold Qcdiv. ring.
    - exfalso. apply Q1. transitivity (den (row (s_rows s1) i) k / v * v); [now field|]. rewrite Q2. ring. }
  rewrite Er.
  assert (CO3 : counts_ok (S k) (S k) m rows2 nr2 nc2).
  { destruct CO2 as [X1 X2 X3 X4]. split; try assumption. intros j Lj. apply X4. lia. }
  destruct (eliminate_fold m k ((k, v) :: C) rho Lk HC (m - S k) (S k) rows2 nr2 nc2 (s_low s1))
    as (rows3 & nr3 & nc3 & low3 & E3 & L4 & L5 & CO4 & V5 & V6 & V7 & V8 & Knr & Knc); try lia.
  { intros i Li. now apply V4. }
  { assumption. }
  rewrite (foldM_same (eliminate_d k ((k, v) :: C)) (eliminate k ((k, v) :: C)) (fun _ => True)); [|exact I|].
  2:{ intros st [i r] Hi _. split; [|trivial]. unfold eliminate_d. rewrite asserted; [reflexivity|]. cbn [snd].
      apply in_flat_map in Hi. destruct Hi as (x & _ & Hx). destruct (qzero (rho x)) eqn:Q; [destruct Hx|].
      destruct Hx as [[= <- <-]|[]]. now rewrite Q. }
  rewrite E3. cbn [bind].
  destruct CO4 as [X1 X2 X3 X4].
  rewrite (index_Ok nr3 k 0%nat), (index_Ok nc3 k 0%nat) by lia. cbn [bind].
  assert (Z1 : nth k nr3 0%nat = 0%nat).
  { rewrite Knr.
    assert (G : nth k nr2 0%nat = nth k nr1 0%nat).
    { clear - E2. revert E2. generalize (@nil (nat * Qc)) at 1. generalize (s_rows s1), nr1, nc1.
      assert (G : forall n a rows nr nc r rows' nr' nc' r', (k < a)%nat ->
        foldM (heads k v) (seq a n) (rows, nr, nc, r) = Ok (rows', nr', nc', r') -> nth k nr' 0%nat = nth k nr 0%nat).
      { induction n as [|n IH]; intros a rows nr nc r rows' nr' nc' r' La E; cbn [seq foldM] in E.
        - injection E as _ <- _ _. reflexivity.
        - unfold heads at 1 in E. destruct (index rows a) as [[|[j x] t]| |]; cbn [bind] in E; try discriminate E.
          destruct (Nat.eqb j k).
          + unfold sub_at at 1 in E. destruct (index nr a) as [y| |] eqn:Ey; cbn [bind] in E; try discriminate E.
            destruct (Nat.ltb y 1); cbn [bind] in E; try discriminate E.
            destruct (sub_at nc k 1) as [ncx| |]; cbn [bind] in E; try discriminate E.
            apply IH in E; [|lia]. rewrite E. destruct (Nat.lt_ge_cases a (length nr)) as [Cl|Cl].
            * rewrite upd_nth by assumption. now rewrite (proj2 (Nat.eqb_neq k a)) by lia.
            * unfold index in Ey. rewrite (proj2 (nth_error_None nr a) Cl) in Ey. discriminate Ey.
          + cbn [bind] in E. apply IH in E; [assumption|lia]. }
      intros rows nr nc r E. apply (G _ _ _ _ _ _ _ _ _ _ ltac:(auto) E). }
    rewrite G, V1, Nat.eqb_refl, Lck, Ek. lia. }
  assert (Z2 : nth k nc3 0%nat = 0%nat).
  { rewrite Knc. destruct CO2 as [_ _ _ Y]. rewrite Y by lia. apply Nat.le_0_r. apply Nat.nlt_ge. intros P.
    assert (csum (S k) (m - S k) (fun x => nz (den (row rows2 x) k)) = 0)%nat; [|lia].
    transitivity (csum (S k) (m - S k) (fun _ => 0%nat)); [apply csum_ext|].
    - intros x Lx. destruct (V4 x ltac:(lia)) as [_ ->]. rewrite Nat.eqb_refl. now apply nz_0.
    - generalize (S k) at 1. generalize (m - S k)%nat. clear. induction n as [|n IH]; intros a; [reflexivity|].
      rewrite csum_S. cbn [Nat.add]. apply IH. }
  rewrite Z1, Z2. cbn [Nat.eqb assert bind]. rewrite asserted; [reflexivity|].
  apply forallb_forall. intros [r n] Hr. destruct (In_nth _ _ ([], 0%nat) Hr) as (i & Li & Ei).
  rewrite skipn_length, combine_length in Li.
  assert (Ei' : nth (S k + i) (combine rows3 nr3) ([], 0%nat) = (r, n)).
  { rewrite <- Ei. rewrite <- (firstn_skipn (S k) (combine rows3 nr3)) at 1.
    rewrite app_nth2 by (rewrite firstn_length, combine_length; lia). rewrite firstn_length, combine_length. f_equal. lia. }
  rewrite combine_nth in Ei' by lia. injection Ei' as <- <-. apply Nat.eqb_eq. symmetry. apply X3. lia.
Qed.
End Step.

Lemma split_upper_same : forall rows i up diag,
  (forall x, (x < length rows)%nat -> exists d t, row rows x = ((i + x)%nat, d) :: t) ->
  split_upper_d i rows up diag = split_upper i rows up diag.
Proof.
  induction rows as [|r rows IH]; intros i up diag H; [reflexivity|]. cbn [split_upper_d split_upper].
  destruct (H 0%nat ltac:(cbn; lia)) as (d & t & E). unfold row in E. cbn [nth] in E. rewrite E, Nat.add_0_r, Nat.eqb_refl.
  cbn [assert bind]. destruct (mapM dec_index t); [cbn [bind]|reflexivity|reflexivity].
  destruct (push_column i a up); [cbn [bind]|reflexivity|reflexivity]. apply IH.
  intros x Lx. destruct (H (S x) ltac:(cbn; lia)) as (d' & t' & E'). exists d', t'.
  replace (S i + x)%nat with (i + S x)%nat by lia. exact E'.
Qed.

Lemma lu_rows_same m N B rows : (2 <= m)%nat -> is_inverse m N B -> length rows = m ->
  (forall i, (i < m)%nat -> wfs m (nth i rows []) /\ forall j, (j < m)%nat -> den (nth i rows []) j = B i j) ->
  lu_rows_d rows = lu_rows rows.
Proof.
  intros M NB Lr H. unfold lu_rows_d, lu_rows. rewrite asserted.
  2:{ apply (fwf_rows_sorted m). intros i Li. apply H. rewrite <- Lr. exact Li. }
  rewrite Lr. rewrite asserted by (apply Nat.ltb_lt; lia).
  destruct m as [|m1] eqn:Em; [lia|]. rewrite <- Em in *.
  assert (Fw : Forall (wfs m) rows).
  { apply Forall_forall. intros r Hr. destruct (In_nth _ _ [] Hr) as (i & Li & <-). apply H. lia. }
  unfold count_columns_d, count_columns. rewrite asserted by (apply Nat.ltb_lt; lia).
  rewrite asserted.
  2:{ apply forallb_forall. intros r Hr. rewrite Forall_forall in Fw. apply (fwf_below m _ 0). now apply Fw. }
  destruct (count_columns_spec m rows (repeat 0%nat m) Fw (repeat_length _ _)) as (nc & -> & Lc & Vc). cbn [bind].
  set (s0 := mk_fstate _ _ _ _ _ _).
  assert (V0 : finv m B 0 s0).
  { assert (Ps : perm_ok m (seq 0 m)).
    { split; [apply seq_length|]. split; [apply seq_NoDup|]. intros x Hx. apply in_seq in Hx. lia. }
    assert (Zl : forall i, lrow (repeat [] m1) i = []).
    { intros [|i]; [reflexivity|]. cbn [lrow]. apply nth_repeat. }
    split; cbn [s0 s_rp s_cp s_low s_nr s_nc s_rows]; try assumption.
    - intros; lia.
    - intros i Li. apply H. lia.
    - rewrite repeat_length. lia.
    - intros i. rewrite Zl. exact I.
    - intros i j Li Lj. rewrite !seq_nth by assumption. cbn [Nat.add]. rewrite Zl.
      rewrite sum_zero by (intros; cbn; ring). unfold row. destruct (H i Li) as [_ D]. rewrite D by assumption. ring.
    - split; try assumption.
      + now rewrite map_length.
      + intros i Li. change 0%nat with (@length (nat * Qc) []) at 1. rewrite map_nth. reflexivity.
      + intros j Lj. rewrite Vc, Lr, Nat.sub_0_r. now rewrite nth_repeat. }
  pose proof (v_cnt _ _ _ _ V0) as [C1 C2 C3 C4]. cbn [s0 s_nr s_nc s_rows] in C1, C2, C3, C4.
  assert (P1 : all_positive nc = true).
  { apply (positive_skipn nc 0 m C2). intros j Lj. rewrite C4 by assumption. now apply (column_nonzero m N B NB 0 s0). }
  assert (P2 : all_positive (map (@length _) rows) = true).
  { apply (positive_skipn (map (@length _) rows) 0 m C1). intros i Li. rewrite C3 by assumption.
    destruct (row_nonzero m N B NB 0 s0 i V0 Li) as (j & _ & Nj). cbn [s0 s_rows] in Nj.
    destruct (row rows i); [now contradiction Nj|cbn; lia]. }
  rewrite !asserted by assumption. cbn [bind]. fold s0. clear C1 C2 C3 C4.
  assert (G : forall n k s, (k + n = m)%nat -> finv m B k s -> foldM fstep_d (seq k n) s = foldM fstep (seq k n) s /\
     exists s', foldM fstep (seq k n) s = Ok s' /\ finv m B m s').
  { clear - NB. induction n as [|n IH]; intros k s E V; cbn [seq foldM].
    - split; [reflexivity|]. exists s. replace m with k at 2 by lia. rewrite Nat.add_0_r in E. subst k. auto.
    - rewrite (fstep_same m N B NB k s ltac:(lia) V).
      destruct (fstep_spec m N B NB k s ltac:(lia) V) as (s' & -> & V'). cbn [bind]. apply IH; [lia|assumption]. }
  destruct (G m 0%nat s0 eq_refl V0) as (-> & s & -> & Vs). cbn [bind].
  rewrite split_upper_same.
  2:{ intros x Lx. rewrite (v_lr _ _ _ _ Vs) in Lx. destruct (v_done _ _ _ _ Vs x Lx) as [W D].
      destruct (fwf_head x m _ W) as [(v & C & E & _)|W']; [eauto|]. exfalso. apply D. apply (den_below (S x) m); assumption || lia. }
  destruct (split_upper 0 (s_rows s) (repeat [] m1) []); [cbn [bind]|reflexivity|reflexivity].
  destruct (transpose_from 1 (s_low s) (repeat [] m1)); [cbn [bind]|reflexivity|reflexivity].
  rewrite (full_new_same m (s_rp s)), (full_new_same m (s_cp s)) by (lia || apply Vs). reflexivity.
Qed.

Lemma lu_invert_same m N cols : (2 <= m)%nat -> length cols = m -> Forall (wfs m) cols ->
  is_inverse m N (cols_mat cols) -> lu_invert_d cols = lu_invert cols.
Proof.
  intros M L F I. unfold lu_invert_d, lu_invert. rewrite L.
  destruct (transpose_spec m (cols_mat cols) cols 0 (repeat [] m)) as (rows & E & Lr & Hr).
  - intros j Lj. split; [|reflexivity]. apply (Forall_nth (wfs m) cols) ; [assumption|]. exact Lj.
  - split; [apply repeat_length|]. intros i Li. split; [|intros; lia].
    replace (nth i (repeat [] m) []) with (@nil (nat * Qc)) by (symmetry; apply nth_repeat). exact Logic.I.
  - rewrite E. cbn [bind].
    change (@length (list (nat * Qc)) cols) with (@length svec cols) in Hr. rewrite L in Hr.
    assert (X : forall i, (i < m)%nat -> wfs m (nth i rows []) /\ forall j, (j < m)%nat -> den (nth i rows []) j = cols_mat cols i j)
      by (intros i Li; now apply Hr).
    rewrite asserted.
    + now apply (lu_rows_same m N (cols_mat cols)).
    + apply (fwf_rows_sorted m). intros i Li. apply X. rewrite <- Lr. exact Li.
Qed.
