(** * One step of the LU factorization *)
From Coq Require Import Permutation.
From Verif Require Export LuF.

Definition row (rows : list svec) (i : nat) : svec := nth i rows [].
(** row [i] of the lower triangle *)
Definition lrow (low : list svec) (i : nat) : svec := match i with 0%nat => [] | S k => nth k low [] end.

(** the counters agree with rows [a..m), for columns from [c] on *)
Record counts_ok (a c m : nat) (rows : list svec) (nr nc : list nat) : Prop := {
  c_lr : length nr = m;
  c_lc : length nc = m;
  c_r : forall i, (a <= i < m)%nat -> nth i nr 0%nat = length (row rows i);
  c_c : forall j, (c <= j < m)%nat -> nth j nc 0%nat = csum a (m - a) (fun x => nz (den (row rows x) j))
}.
Record finv (m : nat) (B : mat) (k : nat) (s : fstate) : Prop := {
  v_rp : perm_ok m (s_rp s);
  v_cp : perm_ok m (s_cp s);
  v_lr : length (s_rows s) = m;
  v_done : forall i, (i < k)%nat -> fwf i m (row (s_rows s) i) /\ den (row (s_rows s) i) i <> 0;
  v_todo : forall i, (k <= i < m)%nat -> fwf k m (row (s_rows s) i);
  v_ll : length (s_low s) = (m - 1)%nat;
  v_low : forall i, fwf 0 (Nat.min k i) (lrow (s_low s) i);
  v_eq : forall i j, (i < m)%nat -> (j < m)%nat -> B (nth i (s_rp s) 0%nat) (nth j (s_cp s) 0%nat) =
    den (row (s_rows s) i) j + sum m (fun t => den (lrow (s_low s) i) t * den (row (s_rows s) t) j);
  v_cnt : counts_ok k k m (s_rows s) (s_nr s) (s_nc s)
}.

Section Step.
Variables (m : nat) (N B : mat).
Hypothesis NB : is_inverse m N B.

(** ** Invertibility: no row vanishes *)
Lemma row_nonzero k s i : finv m B k s -> (k <= i < m)%nat ->
  exists j, (k <= j < m)%nat /\ den (row (s_rows s) i) j <> 0.
Proof.
  intros V Li. destruct (Nat.lt_ge_cases 0 (length (row (s_rows s) i))) as [C|C].
  { pose proof (v_todo _ _ _ _ V i Li) as W. destruct (row (s_rows s) i) as [|[j x] t] eqn:E; [cbn in C; lia|].
    destruct (den_In k m _ j x W (or_introl eq_refl)) as (D & Nx & Lj). exists j. split; [assumption|]. now rewrite D. }
  exfalso. assert (E : row (s_rows s) i = []) by (destruct (row (s_rows s) i); [reflexivity|cbn in C; lia]).
  destruct (v_rp _ _ _ _ V) as (Lr & Nr & Br). destruct (v_cp _ _ _ _ V) as (Lc & Nc & Bc).
  pose proof (full_new_spec m _ Lc Nc Bc) as F.
  set (cp := fun j => nth j (s_cp s) 0%nat). set (rp := fun j => nth j (s_rp s) 0%nat).
  set (c := fun j => N j (rp i)).
  assert (Lri : (rp i < m)%nat) by (apply perm_nth; [apply V|lia]).
  assert (HB : forall r, (r < m)%nat -> sum m (fun j => B r (cp j) * c (cp j)) = delta r (rp i)).
  { intros r Lr'. rewrite (sum_perm m cp (fun j => nth j (f_bw (full_new (s_cp s))) 0%nat) (fun j => B r j * c j)).
    - now apply NB.
    - apply (fu_f _ _ F).
    - apply (fu_b _ _ F). }
  assert (H : forall q t, (q < m)%nat -> (t = q) -> sum m (fun j => den (row (s_rows s) t) j * c (cp j)) =
     delta (rp t) (rp i) - sum m (fun u => den (lrow (s_low s) t) u * sum m (fun j => den (row (s_rows s) u) j * c (cp j)))).
  { intros q t Lq ->. rewrite dot_assoc. rewrite <- HB by (apply perm_nth; [apply V|assumption]).
    rewrite <- sum_minus. apply sum_ext. intros j Lj. unfold rp, cp at 2. rewrite (v_eq _ _ _ _ V) by assumption. ring. }
  assert (Z : forall t, (t < k)%nat -> sum m (fun j => den (row (s_rows s) t) j * c (cp j)) = 0).
  { intros t. induction t as [t IH] using (well_founded_induction lt_wf). intros Lt.
    rewrite (H t t) by (reflexivity || lia). rewrite delta_diff.
    - rewrite sum_zero; [ring|]. intros u Lu. destruct (Nat.lt_ge_cases u t) as [Cu|Cu].
      + rewrite IH by lia. ring.
      + rewrite (den_above 0 (Nat.min k t)) by (try apply (v_low _ _ _ _ V); lia). ring.
    - intros E'. apply (NoDup_nth (s_rp s) 0%nat) in E'; try assumption; lia. }
  pose proof (H i i ltac:(lia) eq_refl) as Hi. rewrite E in Hi.
  rewrite (sum_zero m (fun j => den [] j * c (cp j))) in Hi by (intros; cbn; ring).
  rewrite delta_same in Hi. rewrite sum_zero in Hi; [discriminate Hi|].
  intros u Lu. destruct (Nat.lt_ge_cases u k) as [Cu|Cu].
  - rewrite Z by assumption. ring.
  - rewrite (den_above 0 (Nat.min k i)) by (try apply (v_low _ _ _ _ V); lia). ring.
Qed.

(** ** The pivot *)
Lemma In_candidates rows k i j : In (i, j) (candidates rows k) ->
  (k <= i < length rows)%nat /\ exists v, In (j, v) (skipn (snd (bsearch k (row rows i))) (row rows i)).
Proof.
  unfold candidates. rewrite sort_by_In. rewrite in_concat. intros (l & Hl & H). apply in_map_iff in Hl.
  destruct Hl as (i' & <- & Hi). apply in_map_iff in H. destruct H as ([j' v] & E & H). injection E as <- <-.
  unfold range in Hi. apply in_seq in Hi. split; [lia|]. now exists v.
Qed.
Lemma bsearch_0 k n l : fwf k n l -> snd (bsearch k l) = 0%nat.
Proof.
  destruct l as [|[i v] l]; [reflexivity|]. intros (H & _). cbn [bsearch].
  rewrite (proj2 (Nat.ltb_ge i k)) by lia. now destruct (Nat.eqb i k).
Qed.
Lemma choose_pivot_some k s : (k < m)%nat -> finv m B k s -> candidates (s_rows s) k <> [] ->
  exists i j, choose_pivot (s_nr s) (s_nc s) (s_rows s) k = Ok (i, j) /\
    (k <= i < m)%nat /\ (k <= j < m)%nat /\ den (row (s_rows s) i) j <> 0.
Proof.
  intros Lk V NC.
  assert (HC : forall i j, In (i, j) (candidates (s_rows s) k) ->
    (k <= i < m)%nat /\ (k <= j < m)%nat /\ den (row (s_rows s) i) j <> 0).
  { intros i j H. apply In_candidates in H. destruct H as (Li & v & H). rewrite (v_lr _ _ _ _ V) in Li.
    pose proof (v_todo _ _ _ _ V i Li) as W. rewrite (bsearch_0 k m) in H by assumption. cbn [skipn] in H.
    destruct (den_In k m _ j v W H) as (D & Nv & Lj). rewrite D. auto. }
  assert (HM : forall i j, In (i, j) (candidates (s_rows s) k) -> exists w, markowitz (s_nr s) (s_nc s) i j = Ok w).
  { intros i j H. destruct (HC i j H) as (Li & Lj & Nd). destruct (v_cnt _ _ _ _ V) as [L1 L2 R C].
    unfold markowitz. rewrite (index_Ok _ i 0%nat), (index_Ok _ j 0%nat) by lia. cbn [bind].
    rewrite R, C by assumption.
    assert (A1 : (1 <= length (row (s_rows s) i))%nat).
    { destruct (row (s_rows s) i); [exfalso; now apply Nd|cbn; lia]. }
    assert (A2 : (1 <= csum k (m - k) (fun x => nz (den (row (s_rows s) x) j)))%nat).
    { rewrite <- (nz_1 _ Nd). apply (csum_ge k (fun x => nz (den (row (s_rows s) x) j)) i). lia. }
    destruct (length (row (s_rows s) i)); [lia|]. destruct (csum _ _ _); [lia|]. eexists. reflexivity. }
  unfold choose_pivot. destruct (candidates (s_rows s) k) as [|[i j] t] eqn:E.
  { now contradiction NC. }
  destruct (HM i j (or_introl eq_refl)) as (w & ->). cbn [bind].
  assert (G : forall c bi bj w, In (bi, bj) ((i, j) :: t) ->
     (forall x, In x c -> In x ((i, j) :: t)) ->
     exists i' j', min_from (s_nr s) (s_nc s) (bi, bj) w c = Ok (i', j') /\ In (i', j') ((i, j) :: t)).
  { clear w. induction c as [|[i' j'] c IH]; intros bi bj w H H0.
    - exists bi, bj. split; [reflexivity|assumption].
    - cbn [min_from]. destruct (HM i' j') as (x & ->); [apply H0; now left|]. cbn [bind].
      destruct (Nat.ltb x w); apply IH; auto; try (intros; apply H0; now right). apply H0. now left. }
  destruct (G t i j w) as (i' & j' & E' & H'); [now left|intros; now right|].
  exists i', j'. split; [assumption|]. now apply HC.
Qed.

Lemma candidates_some k s : (k < m)%nat -> finv m B k s -> candidates (s_rows s) k <> [].
Proof.
  intros Lk V E. destruct (row_nonzero k s k V ltac:(lia)) as (j & Lj & Nd).
  pose proof (v_todo _ _ _ _ V k ltac:(lia)) as W.
  assert (exists v r, row (s_rows s) k = v :: r) as ([j' v] & r & Er).
  { destruct (row (s_rows s) k) as [|v r]; [now contradiction Nd|]. now exists v, r. }
  assert (H : In (k, j') (candidates (s_rows s) k)).
  { unfold candidates. rewrite sort_by_In, in_concat. eexists. split.
    - apply in_map_iff. exists k. split; [reflexivity|]. unfold range. apply in_seq. rewrite (v_lr _ _ _ _ V). lia.
    - fold (row (s_rows s) k). rewrite (bsearch_0 k m) by assumption. rewrite Er. now left. }
  rewrite E in H. destruct H.
Qed.

(** ** The swap *)
Lemma mapM_sw a b rows : (a < m)%nat -> (b < m)%nat -> Forall (wfs m) rows ->
  exists rows', mapM (sw_sorted a b) rows = Ok rows' /\ length rows' = length rows /\
    forall i, wfs m (row rows' i) /\ length (row rows' i) = length (row rows i) /\
      forall j, den (row rows' i) j = den (row rows i) (sw_forward a b j).
Proof.
  intros La Lb H. induction H as [|r rows W H IH].
  - exists []. split; [reflexivity|]. split; [reflexivity|]. intros [|i]; (split; [exact I|]); split; reflexivity.
  - cbn [mapM]. destruct (sw_sorted_spec m a b r W La Lb) as (r' & Er & Wr & Dr). rewrite Er. cbn [bind].
    destruct IH as (rows' & -> & L & V). cbn [bind]. exists (r' :: rows'). split; [reflexivity|].
    cbn [length]. split; [lia|]. intros [|i]; [|apply V]. cbn. split; [assumption|]. split; [|assumption].
    now apply sw_sorted_length in Er.
Qed.
Lemma fswap_spec k s pr pc : (k < m)%nat -> finv m B k s -> (k <= pr < m)%nat -> (k <= pc < m)%nat ->
  exists s', fswap s pr pc k = Ok s' /\ finv m B k s' /\
    forall j, den (row (s_rows s') k) j = den (row (s_rows s) pr) (sw_forward pc k j).
Proof.
  intros Lk V Lr Lc.
  assert (H1 : exists s1, (if Nat.eqb pr k then Ok s
     else let* rp := swap_list (s_rp s) pr k in
          let* nr := swap_list (s_nr s) pr k in
          let* rows := swap_list (s_rows s) pr k in
          let* low := (if Nat.ltb 0 pr && Nat.ltb 0 k
                       then swap_list (s_low s) (pr - 1) (k - 1) else Ok (s_low s)) in
          Ok (mk_fstate rp (s_cp s) low nr (s_nc s) rows)) = Ok s1 /\ finv m B k s1 /\
     row (s_rows s1) k = row (s_rows s) pr).
  { destruct (Nat.eqb_spec pr k) as [->|Np]; [exists s; auto|].
    destruct V as [Vrp Vcp Vlr Vd Vt Vll Vl Ve [C1 C2 C3 C4]].
    destruct (swap_list_spec (s_rp s) pr k 0%nat) as (rp & -> & L1 & V1); try (rewrite (proj1 Vrp); lia).
    destruct (swap_list_spec (s_nr s) pr k 0%nat) as (nr & -> & L2 & V2); try lia.
    destruct (swap_list_spec (s_rows s) pr k []) as (rows & -> & L3 & V3); try lia. cbn [bind].
    assert (HL : exists low, (if Nat.ltb 0 pr && Nat.ltb 0 k
                       then swap_list (s_low s) (pr - 1) (k - 1) else Ok (s_low s)) = Ok low /\
       length low = length (s_low s) /\ forall i, lrow low i = lrow (s_low s) (sw_forward pr k i)).
    { destruct (Nat.ltb_spec 0 k) as [C|C].
      - rewrite (proj2 (Nat.ltb_lt 0 pr)) by lia. cbn [andb].
        destruct (swap_list_spec (s_low s) (pr - 1) (k - 1) []) as (low & E & Ll & Vlo); try lia.
        exists low. split; [assumption|]. split; [assumption|]. intros [|i]; unfold sw_forward.
        + rewrite (proj2 (Nat.eqb_neq 0 pr)), (proj2 (Nat.eqb_neq 0 k)) by lia. reflexivity.
        + cbn [lrow]. rewrite Vlo. unfold sw_forward.
          destruct (Nat.eqb_spec i (pr - 1)), (Nat.eqb_spec (S i) pr); try lia.
          * destruct k; [lia|]. cbn [lrow]. f_equal. lia.
          * destruct (Nat.eqb_spec i (k - 1)), (Nat.eqb_spec (S i) k); try lia; [|reflexivity].
            destruct pr; [lia|]. cbn [lrow]. f_equal. lia.
      - rewrite Bool.andb_false_r. exists (s_low s). split; [reflexivity|]. split; [reflexivity|].
        assert (k = 0%nat) as -> by lia.
        assert (Z : forall i, lrow (s_low s) i = []).
        { intros i. specialize (Vl i). destruct (lrow (s_low s) i) as [|[j x] t]; [reflexivity|]. destruct Vl. cbn in *. lia. }
        intros i. now rewrite !Z. }
    destruct HL as (low & -> & Ll & Vlo). cbn [bind]. eexists. split; [reflexivity|].
    assert (Hr : forall i, row rows i = row (s_rows s) (sw_forward pr k i)) by exact V3.
    assert (Sl : forall i, (i < k)%nat -> sw_forward pr k i = i).
    { intros i Li. unfold sw_forward. now rewrite (proj2 (Nat.eqb_neq i pr)), (proj2 (Nat.eqb_neq i k)) by lia. }
    assert (Sg : forall i, (k <= i < m)%nat -> (k <= sw_forward pr k i < m)%nat).
    { intros i Li. unfold sw_forward. destruct (Nat.eqb i pr), (Nat.eqb i k); lia. }
    assert (Lall : forall i, (i < m)%nat -> (sw_forward pr k i < m)%nat) by (intros; apply sw_forward_lt; lia).
    split.
    - split; cbn [s_rp s_cp s_low s_nr s_nc s_rows].
      + apply (perm_swap m (s_rp s) pr k); try assumption; lia.
      + assumption.
      + lia.
      + intros i Li. rewrite Hr, Sl by assumption. now apply Vd.
      + intros i Li. rewrite Hr. now apply Vt, Sg.
      + lia.
      + intros i. rewrite Vlo. destruct (Nat.lt_ge_cases i k) as [C|C]; [rewrite Sl by assumption; apply Vl|].
        apply fwf_grow with (Nat.min k (sw_forward pr k i)); [lia|apply Vl].
      + intros i j Li Lj. rewrite V1, Hr, Vlo. rewrite Ve by (assumption || now apply Lall). f_equal.
        apply sum_ext. intros t Lt. rewrite Hr. destruct (Nat.lt_ge_cases t k) as [C|C]; [now rewrite (Sl t C)|].
        rewrite (den_above 0 (Nat.min k (sw_forward pr k i))) by (try apply Vl; lia). ring.
      + split; try lia.
        * intros i Li. rewrite V2, Hr. now apply C3, Sg.
        * intros j Lj. rewrite C4 by assumption.
          rewrite <- (csum_perm k (m - k) (fun x => nz (den (row (s_rows s) x) j)) (sw_forward pr k)).
          -- apply csum_ext. intros x Lx. now rewrite Hr.
          -- intros x Lx. specialize (Sg x). lia.
          -- intros x. apply sw_forward_invol.
    - cbn [s_rows]. rewrite Hr. unfold sw_forward. rewrite Nat.eqb_refl.
      destruct (Nat.eqb_spec k pr); [congruence|reflexivity]. }
  destruct H1 as (s1 & E1 & V1 & R1). unfold fswap. rewrite E1. cbn [bind]. clear E1.
  destruct (Nat.eqb_spec pc k) as [->|Np].
  { exists s1. split; [reflexivity|]. split; [assumption|]. intros j. rewrite R1. unfold sw_forward.
    destruct (Nat.eqb_spec j k) as [->|]; reflexivity. }
  clear V. destruct V1 as [Vrp Vcp Vlr Vd Vt Vll Vl Ve [C1 C2 C3 C4]].
  destruct (swap_list_spec (s_cp s1) pc k 0%nat) as (cp & -> & L1 & V1); try (rewrite (proj1 Vcp); lia).
  destruct (swap_list_spec (s_nc s1) pc k 0%nat) as (nc & -> & L2 & V2); try lia. cbn [bind].
  destruct (mapM_sw pc k (s_rows s1)) as (rows & -> & L3 & V3); try lia.
  { apply Forall_forall. intros r Hr. destruct (In_nth _ _ [] Hr) as (i & Li & <-). fold (row (s_rows s1) i).
    destruct (Nat.lt_ge_cases i k) as [C|C].
    - apply fwf_weaken with i; [lia|]. now apply Vd.
    - apply fwf_weaken with k; [lia|]. apply Vt. lia. }
  cbn [bind]. eexists. split; [reflexivity|].
  assert (Sl : forall i, (i < k)%nat -> sw_forward pc k i = i).
  { intros i Li. unfold sw_forward. now rewrite (proj2 (Nat.eqb_neq i pc)), (proj2 (Nat.eqb_neq i k)) by lia. }
  assert (Sg : forall i, (k <= i < m)%nat -> (k <= sw_forward pc k i < m)%nat).
  { intros i Li. unfold sw_forward. destruct (Nat.eqb i pc), (Nat.eqb i k); lia. }
  split.
  - split; cbn [s_rp s_cp s_low s_nr s_nc s_rows]; try assumption.
    + apply (perm_swap m (s_cp s1) pc k); try assumption; lia.
    + lia.
    + intros i Li. destruct (V3 i) as (W & _ & D). destruct (Vd i Li) as [Wd Dd]. split.
      * apply fwf_low with 0%nat; [|assumption]. intros j Lj. rewrite D, Sl by lia. now apply (den_below i m).
      * rewrite D, Sl by assumption. assumption.
    + intros i Li. destruct (V3 i) as (W & _ & D). apply fwf_low with 0%nat; [|assumption].
      intros j Lj. rewrite D, Sl by lia. apply (den_below k m); [now apply Vt|assumption].
    + intros i j Li Lj. rewrite V1. rewrite Ve by (try assumption; apply sw_forward_lt; lia).
      destruct (V3 i) as (_ & _ & D). rewrite D. f_equal. apply sum_ext. intros t Lt. f_equal.
      destruct (V3 t) as (_ & _ & Dt). now rewrite Dt.
    + split; try lia.
      * intros i Li. destruct (V3 i) as (_ & El & _). rewrite El. now apply C3.
      * intros j Lj. rewrite V2, C4 by now apply Sg. apply csum_ext. intros x Lx.
        destruct (V3 x) as (_ & _ & D). now rewrite D.
  - intros j. cbn [s_rows]. destruct (V3 k) as (_ & _ & D). now rewrite D, R1.
Qed.

(** ** The elimination *)
Lemma row_upd rows i r x : (i < length rows)%nat -> row (upd rows i r) x = if Nat.eqb x i then r else row rows x.
Proof. intros L. unfold row. now apply upd_nth. Qed.
(** replacing one row and its counters *)
Lemma counts_upd a c rows nr nc i r nr' nc' : counts_ok a c m rows nr nc -> (a <= i < m)%nat -> length rows = m ->
  length nr' = m -> length nc' = m ->
  (forall x, nth x nr' 0%nat = if Nat.eqb x i then length r else nth x nr 0%nat) ->
  (forall j, (c <= j < m)%nat -> nth j nc' 0 + nz (den (row rows i) j) = nth j nc 0 + nz (den r j))%nat ->
  counts_ok a c m (upd rows i r) nr' nc'.
Proof.
  intros [C1 C2 C3 C4] Li Lr L1 L2 H1 H2. split; try assumption.
  - intros x Lx. rewrite H1, row_upd by lia. destruct (Nat.eqb x i); [reflexivity|now apply C3].
  - intros j Lj. specialize (H2 j Lj). rewrite C4 in H2 by assumption.
    pose proof (csum_upd a (fun x => nz (den (row (upd rows i r) x) j)) (fun x => nz (den (row rows x) j)) i (m - a)
      ltac:(lia)) as E. cbn beta in E. rewrite row_upd in E by lia. rewrite Nat.eqb_refl in E.
    enough (csum a (m - a) (fun x => nz (den (row (upd rows i r) x) j)) + nz (den (row rows i) j) =
            csum a (m - a) (fun x => nz (den (row rows x) j)) + nz (den r j))%nat by lia.
    apply E. intros y Ly Ny. rewrite row_upd by lia. now rewrite (proj2 (Nat.eqb_neq y i)).
Qed.

Definition ratio_at (k : nat) (rows : list svec) (pv : Qc) (i : nat) : list (nat * Qc) :=
  if qzero (den (row rows i) k) then [] else [(i, den (row rows i) k / pv)].
Lemma heads_fold k pv : (k < m)%nat -> pv <> 0 -> forall n a rows nr nc ratios, (S k <= a)%nat -> (a + n = m)%nat ->
  length rows = m -> (forall i, (a <= i < m)%nat -> fwf k m (row rows i) /\ row rows i <> []) ->
  counts_ok (S k) k m rows nr nc ->
  exists rows' nr' nc', foldM (heads k pv) (seq a n) (rows, nr, nc, ratios) =
      Ok (rows', nr', nc', ratios ++ flat_map (ratio_at k rows pv) (seq a n)) /\
    length rows' = m /\ counts_ok (S k) k m rows' nr' nc' /\
    (forall i, (i < a)%nat -> row rows' i = row rows i) /\
    (forall i, (a <= i < m)%nat -> fwf (S k) m (row rows' i) /\
       forall j, den (row rows' i) j = if Nat.eqb j k then 0 else den (row rows i) j).
Proof.
  intros Lk Np. induction n as [|n IH]; intros a rows nr nc ratios La Ln Lr H C; cbn [seq foldM flat_map].
  { exists rows, nr, nc. rewrite app_nil_r. split; [reflexivity|]. split; [assumption|]. split; [assumption|].
    split; [reflexivity|]. intros; lia. }
  destruct (H a ltac:(lia)) as [W Ne]. unfold heads at 1. rewrite (index_Ok rows a []) by lia. fold (row rows a).
  cbn [bind]. destruct (row rows a) as [|[j v] t] eqn:Er; [contradiction|]. destruct W as (W1 & W2 & W3).
  assert (Hstep : exists rows1 nr1 nc1,
    (if Nat.eqb j k then
        let* nr := sub_at nr a 1 in
        let* nc := sub_at nc k 1 in
        Ok (upd rows a t, nr, nc, ratios ++ [(a, v / pv)])
      else Ok (rows, nr, nc, ratios)) = Ok (rows1, nr1, nc1, ratios ++ ratio_at k rows pv a) /\
    length rows1 = m /\ counts_ok (S k) k m rows1 nr1 nc1 /\
    (forall i, i <> a -> row rows1 i = row rows i) /\ fwf (S k) m (row rows1 a) /\
       forall j', den (row rows1 a) j' = if Nat.eqb j' k then 0 else den (row rows a) j').
  { assert (Dk : den (row rows a) k = if Nat.eqb j k then v else 0).
    { rewrite Er. cbn [den]. rewrite (Nat.eqb_sym k j). rewrite (den_below (S j) m) by (assumption || lia).
      destruct (Nat.eqb j k); ring. }
    destruct (Nat.eqb_spec j k) as [->|Nj].
    - destruct C as [C1 C2 C3 C4].
      assert (Hla : nth a nr 0%nat = S (length t)) by (rewrite C3 by lia; now rewrite Er).
      destruct (sub_at_spec nr a 1) as (nr1 & E1 & L1 & V1); [lia|rewrite Hla; lia|].
      assert (Hc : (1 <= nth k nc 0)%nat).
      { rewrite C4 by lia. rewrite <- (nz_1 (den (row rows a) k)) by now rewrite Dk.
        apply (csum_ge (S k) (fun x => nz (den (row rows x) k)) a). lia. }
      destruct (sub_at_spec nc k 1) as (nc1 & E2 & L2 & V2); [lia|assumption|].
      rewrite E1. cbn [bind]. rewrite E2. cbn [bind].
      exists (upd rows a t), nr1, nc1. split; [|split; [|split; [|split; [|split]]]].
      + unfold ratio_at. rewrite Dk. destruct (qzero v) eqn:Z; qb; [contradiction|]. reflexivity.
      + now rewrite upd_length.
      + apply (counts_upd (S k) k rows nr nc); try lia; [now split| |].
        * intros x. rewrite V1, Hla. destruct (Nat.eqb x a); [lia|reflexivity].
        * intros j Lj. rewrite V2. destruct (Nat.eqb_spec j k) as [->|Njk].
          -- rewrite Dk, (nz_1 v) by assumption. rewrite (den_below (S k) m t) by (assumption || lia).
             rewrite (nz_0 0) by reflexivity. lia.
          -- rewrite Er. cbn [den]. rewrite (proj2 (Nat.eqb_neq j k)) by assumption. now rewrite Qcplus_0_l.
      + intros i Ni. rewrite row_upd by lia. now rewrite (proj2 (Nat.eqb_neq i a)).
      + rewrite row_upd, Nat.eqb_refl by lia. assumption.
      + intros j'. rewrite row_upd, Nat.eqb_refl by lia. rewrite Er. cbn [den].
        destruct (Nat.eqb_spec j' k) as [->|]; [apply (den_below (S k) m); assumption || lia|]. ring.
    - exists rows, nr, nc. unfold ratio_at. rewrite Dk. change (qzero 0) with true. rewrite app_nil_r.
      split; [reflexivity|]. split; [assumption|]. split; [assumption|]. split; [reflexivity|]. rewrite Er. split.
      + cbn. repeat split; try assumption; lia.
      + intros j'. destruct (Nat.eqb_spec j' k) as [->|]; [|reflexivity].
        apply (den_below (S k) m); [|lia]. cbn. repeat split; try assumption; lia. }
  destruct Hstep as (rows1 & nr1 & nc1 & -> & L1 & C1 & V1 & W4 & D4). cbn [bind].
  destruct (IH (S a) rows1 nr1 nc1 (ratios ++ ratio_at k rows pv a)) as (rows' & nr' & nc' & E' & L' & C' & V' & D'); try lia.
  { intros i Li. rewrite V1 by lia. apply H. lia. }
  { assumption. }
  exists rows', nr', nc'. split; [|split; [|split; [|split]]].
  - rewrite E'. f_equal. f_equal. rewrite <- app_assoc. f_equal. f_equal.
    rewrite !flat_map_concat_map. f_equal. apply map_ext_in. intros i Hi. apply in_seq in Hi. unfold ratio_at.
    now rewrite V1 by lia.
  - assumption.
  - assumption.
  - intros i Li. rewrite V', V1 by lia. reflexivity.
  - intros i Li. destruct (Nat.eq_dec i a) as [->|Ni].
    + rewrite V' by lia. split; assumption.
    + destruct (D' i ltac:(lia)) as [A1 A2]. split; [assumption|]. intros j'. rewrite A2. now rewrite V1.
Qed.

Lemma lrow_upd low i r x : (0 < i)%nat -> (i - 1 < length low)%nat ->
  lrow (upd low (i - 1) r) x = if Nat.eqb x i then r else lrow low x.
Proof.
  intros L1 L2. destruct x as [|x]; cbn [lrow].
  - now rewrite (proj2 (Nat.eqb_neq 0 i)) by lia.
  - rewrite upd_nth by assumption. destruct (Nat.eqb_spec x (i - 1)), (Nat.eqb_spec (S x) i); try reflexivity; lia.
Qed.
Lemma eliminate_fold k cur (rho : nat -> Qc) : (k < m)%nat -> fwf (S k) m (tl cur) ->
  forall n a rows nr nc low, (S k <= a)%nat -> (a + n = m)%nat ->
  length rows = m -> length low = (m - 1)%nat -> (forall i, (a <= i < m)%nat -> fwf (S k) m (row rows i)) ->
  counts_ok (S k) (S k) m rows nr nc ->
  exists rows' nr' nc' low', foldM (eliminate k cur)
      (flat_map (fun i => if qzero (rho i) then [] else [(i, rho i)]) (seq a n)) (rows, nr, nc, low) =
      Ok (rows', nr', nc', low') /\
    length rows' = m /\ length low' = (m - 1)%nat /\ counts_ok (S k) (S k) m rows' nr' nc' /\
    (forall i, (i < a)%nat -> row rows' i = row rows i) /\
    (forall i, (a <= i < m)%nat -> fwf (S k) m (row rows' i) /\
       forall j, den (row rows' i) j = den (row rows i) j - rho i * den (tl cur) j) /\
    (forall i, (i < a)%nat -> lrow low' i = lrow low i) /\
    (forall i, (a <= i < m)%nat -> lrow low' i = lrow low i ++ if qzero (rho i) then [] else [(k, rho i)]) /\
    (nth k nr' 0 = nth k nr 0 /\ nth k nc' 0 = nth k nc 0)%nat.
Proof.
  intros Lk Wt. induction n as [|n IH]; intros a rows nr nc low La Ln Lr Ll H C; cbn [seq foldM flat_map].
  { exists rows, nr, nc, low. do 4 (split; [reflexivity || assumption|]). split; [reflexivity|].
    split; [intros; lia|]. split; [reflexivity|]. split; [intros; lia|]. split; reflexivity. }
  assert (FA : forall l1 l2 u, foldM (eliminate k cur) (l1 ++ l2) u =
     let* v := foldM (eliminate k cur) l1 u in foldM (eliminate k cur) l2 v).
  { clear. induction l1 as [|x l1 IH]; intros l2 u; cbn [app foldM bind]; [reflexivity|].
    destruct (eliminate k cur u x); cbn [bind]; [apply IH|reflexivity|reflexivity]. }
  rewrite FA. clear FA.
  assert (Hstep : exists rows1 nr1 nc1 low1,
     foldM (eliminate k cur) (if qzero (rho a) then [] else [(a, rho a)]) (rows, nr, nc, low) = Ok (rows1, nr1, nc1, low1) /\
     length rows1 = m /\ length low1 = (m - 1)%nat /\ counts_ok (S k) (S k) m rows1 nr1 nc1 /\
     (forall i, i <> a -> row rows1 i = row rows i) /\ fwf (S k) m (row rows1 a) /\
     (forall j, den (row rows1 a) j = den (row rows a) j - rho a * den (tl cur) j) /\
     (forall i, i <> a -> lrow low1 i = lrow low i) /\
     lrow low1 a = lrow low a ++ (if qzero (rho a) then [] else [(k, rho a)]) /\
     (nth k nr1 0 = nth k nr 0 /\ nth k nc1 0 = nth k nc 0)%nat).
  { destruct (qzero (rho a)) eqn:Z; qb.
    - exists rows, nr, nc, low. split; [reflexivity|]. do 3 (split; [assumption|]). split; [reflexivity|].
      split; [apply H; lia|]. split; [intros; rewrite Z; ring|]. split; [reflexivity|]. rewrite app_nil_r. repeat split.
    - cbn [foldM]. unfold eliminate. rewrite (index_Ok rows a []) by lia. fold (row rows a). cbn [bind].
      pose proof (sub_mult_spec (rho a) m Z (row rows a) (S k) (tl cur) (H a ltac:(lia)) Wt) as SO.
      destruct (sub_mult (rho a) (row rows a) (tl cur)) as [[new removed] added].
      destruct SO as [W D R A NR ND LN].
      pose proof C as [C1 C2 C3 C4].
      assert (Hla : nth a nr 0%nat = length (row rows a)) by (rewrite C3 by lia; reflexivity).
      destruct (sub_at_spec nr a (length (row rows a) - length new)) as (nr1 & E1 & L1 & V1); [lia|rewrite Hla; lia|].
      rewrite E1. cbn [bind].
      destruct (add_at_spec nr1 a (length new - length (row rows a))) as (nr2 & E2 & L2 & V2); [lia|].
      rewrite E2. cbn [bind].
      assert (HR : forall j, In j removed -> (S k <= j < m)%nat).
      { intros j Hj. apply R in Hj. apply (fwf_den_ge (S k) m (row rows a)); [apply H; lia|tauto]. }
      assert (HA : forall j, In j added -> (S k <= j < m)%nat).
      { intros j Hj. apply A in Hj. apply (fwf_den_ge (S k) m new); [assumption|tauto]. }
      destruct (sub_fold removed nc NR) as (nc1 & E3 & L3 & V3).
      { intros j Hj. pose proof (HR j Hj). split; [lia|]. rewrite C4 by assumption. apply R in Hj.
        rewrite <- (nz_1 (den (row rows a) j)) by tauto.
        apply (csum_ge (S k) (fun x => nz (den (row rows x) j)) a). lia. }
      rewrite E3. cbn [bind].
      destruct (add_fold added nc1 ND) as (nc2 & E4 & L4 & V4).
      { intros j Hj. pose proof (HA j Hj). lia. }
      rewrite E4. cbn [bind]. rewrite (index_Ok low (a - 1) []) by lia. cbn [bind].
      eexists _, _, _, _. split; [reflexivity|]. rewrite !upd_length. split; [assumption|]. split; [assumption|].
      split; [|split; [|split; [|split; [|split; [|split; [|split]]]]]].
      + apply (counts_upd (S k) (S k) rows nr nc); try assumption; try lia.
        * intros x. rewrite V2, !V1, Nat.eqb_refl, Hla. destruct (Nat.eqb x a); [lia|reflexivity].
        * intros j Lj. destruct (V4 j) as [V4a V4b], (V3 j) as [V3a V3b].
          assert (Hp : In j removed -> (1 <= nth j nc 0)%nat).
          { intros Hj. rewrite C4 by assumption. apply R in Hj.
            rewrite <- (nz_1 (den (row rows a) j)) by tauto.
            apply (csum_ge (S k) (fun x => nz (den (row rows x) j)) a). lia. }
          destruct (In_dec Nat.eq_dec j removed) as [Ir|Ir], (In_dec Nat.eq_dec j added) as [Ia|Ia].
          -- apply R in Ir. apply A in Ia. tauto.
          -- rewrite V4b, V3a by assumption. specialize (Hp Ir). apply R in Ir. rewrite nz_1, (nz_0 (den new j)) by tauto. lia.
          -- rewrite V4a, V3b by assumption. apply A in Ia. rewrite nz_0, (nz_1 (den new j)) by tauto. lia.
          -- rewrite V4b, V3b by assumption. f_equal. rewrite R in Ir. rewrite A in Ia. unfold nz.
             destruct (qzero (den (row rows a) j)) eqn:Q1, (qzero (den new j)) eqn:Q2; qb; tauto.
      + intros i Ni. rewrite row_upd by lia. now rewrite (proj2 (Nat.eqb_neq i a)).
      + rewrite row_upd, Nat.eqb_refl by lia. assumption.
      + intros j. rewrite row_upd, Nat.eqb_refl by lia. apply D.
      + intros i Ni. rewrite lrow_upd by lia. now rewrite (proj2 (Nat.eqb_neq i a)).
      + rewrite lrow_upd, Nat.eqb_refl by lia. f_equal. destruct a; [lia|]. cbn [lrow]. f_equal. lia.
      + rewrite V2, !V1. rewrite (proj2 (Nat.eqb_neq k a)) by lia. reflexivity.
      + rewrite (proj2 (V4 k)), (proj2 (V3 k)); [reflexivity| |]; intros Hj; [apply HR in Hj|apply HA in Hj]; lia. }
  destruct Hstep as (rows1 & nr1 & nc1 & low1 & -> & L1 & L2 & C1 & V1 & W4 & D4 & V5 & V6 & V7 & V8). cbn [bind].
  destruct (IH (S a) rows1 nr1 nc1 low1) as (rows' & nr' & nc' & low' & E' & A1 & A2 & A3 & A4 & A5 & A6 & A7 & A8 & A9); try lia.
  { intros i Li. rewrite V1 by lia. apply H. lia. }
  { assumption. }
  exists rows', nr', nc', low'. split; [exact E'|]. do 3 (split; [assumption|]). split; [|split; [|split; [|split; [|split; congruence]]]].
  - intros i Li. rewrite A4, V1 by lia. reflexivity.
  - intros i Li. destruct (Nat.eq_dec i a) as [->|Ni].
    + rewrite A4 by lia. split; assumption.
    + destruct (A5 i ltac:(lia)) as [B1 B2]. split; [assumption|]. intros j'. rewrite B2. now rewrite V1.
  - intros i Li. rewrite A6, V5 by lia. reflexivity.
  - intros i Li. destruct (Nat.eq_dec i a) as [->|Ni].
    + rewrite A6 by lia. assumption.
    + rewrite A7, V5 by lia. reflexivity.
Qed.

Lemma fstep_core k s : (k < m)%nat -> finv m B k s -> candidates (s_rows s) k <> [] ->
  (forall pr pc s1, choose_pivot (s_nr s) (s_nc s) (s_rows s) k = Ok (pr, pc) -> fswap s pr pc k = Ok s1 ->
     den (row (s_rows s1) k) k <> 0 -> finv m B k s1 -> forall i, (k < i < m)%nat -> row (s_rows s1) i <> []) ->
  exists s', fstep s k = Ok s' /\ finv m B (S k) s'.
Proof.
  intros Lk V NC RN. unfold fstep. rewrite (v_lr _ _ _ _ V).
  destruct (choose_pivot_some k s Lk V NC) as (pr & pc & Ech & Lr & Lc & Nd). rewrite Ech. cbn [bind fst snd].
  destruct (fswap_spec k s pr pc Lk V Lr Lc) as (s1 & Esw & V1 & D1). rewrite Esw. cbn [bind].
  assert (Nk : den (row (s_rows s1) k) k <> 0).
  { rewrite D1. unfold sw_forward. rewrite Nat.eqb_refl. destruct (Nat.eqb_spec k pc) as [<-|]; assumption. }
  specialize (RN pr pc s1 Ech Esw Nk V1). clear V D1 Nd Lr Lc Ech Esw NC pr pc s.
  destruct V1 as [Vrp Vcp Vlr Vd Vt Vll Vl Ve Vc].
  rewrite (index_Ok (s_rows s1) k []) by lia. fold (row (s_rows s1) k). cbn [bind].
  pose proof (Vt k ltac:(lia)) as Wk. destruct (row (s_rows s1) k) as [|[j pv] t] eqn:Ek; [now contradiction Nk|].
  destruct (fwf_head k m _ Wk) as [(v & C & E & Nv & _ & HC)|W'].
  2:{ exfalso. apply Nk. apply (den_below (S k) m); assumption || lia. }
  injection E as -> -> ->. clear Nk.
  destruct Vc as [C1 C2 C3 C4].
  assert (Lck : nth k (s_nr s1) 0%nat = length (row (s_rows s1) k)) by (apply C3; lia).
  destruct (drop_counts_spec k ((k, v) :: C) k m (s_nr s1) (s_nc s1) Wk) as (nr1 & nc1 & E1 & L1 & L2 & V1 & V2); try lia.
  { rewrite Lck, Ek. lia. }
  { intros j Nj. pose proof (fwf_den_ge k m _ j Wk Nj). rewrite C4 by lia.
    rewrite <- (nz_1 _ Nj), <- Ek. apply (csum_ge k (fun x => nz (den (row (s_rows s1) x) j)) k). lia. }
  rewrite E1. cbn [bind fst snd index ofopt nth_error].
  assert (CO : counts_ok (S k) k m (s_rows s1) nr1 nc1).
  { split; try lia.
    - intros i Li. rewrite V1. rewrite (proj2 (Nat.eqb_neq i k)) by lia. apply C3. lia.
    - intros j Lj. rewrite V2, C4 by lia. replace (m - k)%nat with (S (m - S k)) by lia. rewrite csum_S, Ek. lia. }
  unfold range.
  destruct (heads_fold k v Lk Nv (m - S k) (S k) (s_rows s1) nr1 nc1 []) as (rows2 & nr2 & nc2 & E2 & L3 & CO2 & V3 & V4); try lia.
  { intros i Li. split; [apply Vt; lia|]. apply RN. lia. }
  { assumption. }
  rewrite E2. cbn [bind app]. set (rho := fun i => den (row (s_rows s1) i) k / v).
  assert (Er : flat_map (ratio_at k (s_rows s1) v) (seq (S k) (m - S k)) =
     flat_map (fun i => if qzero (rho i) then [] else [(i, rho i)]) (seq (S k) (m - S k))).
  { rewrite !flat_map_concat_map. f_equal. apply map_ext. intros i. unfold ratio_at, rho.
    destruct (qzero (den (row (s_rows s1) i) k)) eqn:Q1, (qzero (den (row (s_rows s1) i) k / v)) eqn:Q2; qb; try reflexivity.
    - exfalso. apply Q2. rewrite Q1. unfold Qcdiv. ring.
    - exfalso. apply Q1. transitivity (den (row (s_rows s1) i) k / v * v); [now field|]. rewrite Q2. ring. }
  rewrite Er.
  assert (CO3 : counts_ok (S k) (S k) m rows2 nr2 nc2).
  { destruct CO2 as [X1 X2 X3 X4]. split; try assumption. intros j Lj. apply X4. lia. }
  destruct (eliminate_fold k ((k, v) :: C) rho Lk HC (m - S k) (S k) rows2 nr2 nc2 (s_low s1))
    as (rows3 & nr3 & nc3 & low3 & E3 & L4 & L5 & CO4 & V5 & V6 & V7 & V8 & _); try lia.
  { intros i Li. now apply V4. }
  { assumption. }
  rewrite E3. cbn [bind tl] in *. eexists. split; [reflexivity|].
  assert (Rlo : forall i, (i <= k)%nat -> row rows3 i = row (s_rows s1) i).
  { intros i Li. rewrite V5, V3 by lia. reflexivity. }
  assert (Rhi : forall i j, (S k <= i < m)%nat -> den (row rows3 i) j =
     den (row (s_rows s1) i) j - rho i * den (row (s_rows s1) k) j).
  { intros i j Li. destruct (V6 i Li) as [_ ->]. destruct (V4 i Li) as [_ ->]. rewrite Ek. cbn [den].
    destruct (Nat.eqb_spec j k) as [->|].
    - rewrite (den_below (S k) m C) by (assumption || lia). unfold rho. now field.
    - ring. }
  split; cbn [s_rp s_cp s_low s_nr s_nc s_rows]; try assumption.
  - intros i Li. rewrite Rlo by lia. destruct (Nat.eq_dec i k) as [->|Ni]; [|apply Vd; lia].
    rewrite Ek. split; [assumption|]. cbn [den]. rewrite Nat.eqb_refl, (den_below (S k) m C) by (assumption || lia).
    now rewrite Qcplus_0_r.
  - intros i Li. now apply V6.
  - intros i. destruct (Nat.lt_ge_cases i (S k)) as [Ci|Ci].
    + rewrite V7 by assumption. apply fwf_grow with (Nat.min k i); [lia|apply Vl].
    + destruct (Nat.lt_ge_cases i m) as [Cm|Cm].
      * rewrite V8 by lia. rewrite Nat.min_l by lia. specialize (Vl i). rewrite Nat.min_l in Vl by lia.
        destruct (qzero (rho i)) eqn:Q; qb.
        -- rewrite app_nil_r. apply fwf_grow with k; [lia|assumption].
        -- apply fwf_snoc; [assumption|lia|assumption].
      * destruct i; [lia|]. cbn [lrow]. rewrite nth_overflow by lia. exact I.
  - intros i j Li Lj. rewrite Ve by assumption.
    destruct (Nat.lt_ge_cases i (S k)) as [Ci|Ci].
    + rewrite Rlo, V7 by lia. f_equal. apply sum_ext. intros u Lu.
      destruct (Nat.lt_ge_cases u (S k)) as [Cu|Cu]; [now rewrite Rlo by lia|].
      rewrite (den_above 0 (Nat.min k i)) by (try apply Vl; lia). ring.
    + rewrite Rhi, V8 by lia.
      rewrite (sum_ext m (fun t => den (lrow (s_low s1) i ++ (if qzero (rho i) then [] else [(k, rho i)])) t * den (row rows3 t) j)
        (fun t => den (lrow (s_low s1) i) t * den (row (s_rows s1) t) j + delta k t * (rho i * den (row (s_rows s1) t) j))).
      * rewrite sum_plus, sum_delta_l by assumption. ring.
      * intros u Lu. rewrite den_app.
        assert (Ed : den (if qzero (rho i) then [] else [(k, rho i)]) u = delta k u * rho i).
        { unfold delta. rewrite (Nat.eqb_sym k u). destruct (qzero (rho i)) eqn:Q; qb; cbn [den].
          - rewrite Q. ring.
          - destruct (Nat.eqb u k); ring. }
        rewrite Ed. destruct (Nat.lt_ge_cases u (S k)) as [Cu|Cu].
        -- rewrite Rlo by lia. ring.
        -- rewrite (den_above 0 (Nat.min k i)) by (try apply Vl; lia). rewrite delta_diff by lia. ring.
Qed.
Lemma fstep_spec k s : (k < m)%nat -> finv m B k s -> exists s', fstep s k = Ok s' /\ finv m B (S k) s'.
Proof.
  intros Lk V. apply fstep_core; try assumption; [now apply candidates_some|].
  intros pr pc s1 _ _ _ V1 i Li Z. destruct (row_nonzero k s1 i V1 ltac:(lia)) as (j & _ & Nj). apply Nj. now rewrite Z.
Qed.

(** ** Without knowing that there is an inverse *)
Lemma heads_nonempty k pv : forall n a rows nr nc ratios out,
  foldM (heads k pv) (seq a n) (rows, nr, nc, ratios) = Ok out -> forall i, (a <= i < a + n)%nat -> row rows i <> [].
Proof.
  induction n as [|n IH]; intros a rows nr nc ratios out E i Li; [lia|]. cbn [seq foldM] in E.
  unfold heads at 1 in E. destruct (index rows a) as [r| |] eqn:Ei; cbn [bind] in E; try discriminate E.
  destruct (Nat.lt_ge_cases a (length rows)) as [La|La].
  2:{ unfold index in Ei. rewrite (proj2 (nth_error_None rows a) La) in Ei. discriminate Ei. }
  rewrite (index_Ok rows a []) in Ei by assumption. injection Ei as Ei. fold (row rows a) in Ei.
  destruct r as [|[j v] t]; [discriminate E|].
  destruct (Nat.eq_dec i a) as [->|Ni]; [now rewrite Ei|].
  destruct (Nat.eqb j k).
  - destruct (sub_at nr a 1) as [nr1| |]; cbn [bind] in E; try discriminate E.
    destruct (sub_at nc k 1) as [nc1| |]; cbn [bind] in E; try discriminate E.
    specialize (IH (S a) _ _ _ _ _ E i ltac:(lia)). rewrite row_upd in IH by assumption.
    now rewrite (proj2 (Nat.eqb_neq i a)) in IH.
  - cbn [bind] in E. apply (IH (S a) _ _ _ _ _ E i). lia.
Qed.
Lemma fstep_returns k s s' : (k < m)%nat -> finv m B k s -> fstep s k = Ok s' -> finv m B (S k) s'.
Proof.
  intros Lk V E. enough (exists s2, fstep s k = Ok s2 /\ finv m B (S k) s2) as (s2 & E2 & V2) by congruence.
  apply fstep_core; try assumption.
  - intros Z. unfold fstep, choose_pivot in E. rewrite Z in E. discriminate E.
  - intros pr pc s1 Ech Esw _ V1 i Li. unfold fstep in E. rewrite (v_lr _ _ _ _ V), Ech in E. cbn [bind fst snd] in E.
    rewrite Esw in E. cbn [bind] in E.
    destruct (index (s_rows s1) k) as [cur| |]; cbn [bind] in E; try discriminate E.
    destruct (drop_counts k cur (s_nr s1, s_nc s1)) as [[nr nc]| |]; cbn [bind] in E; try discriminate E.
    destruct (index cur 0) as [hd| |]; cbn [bind] in E; try discriminate E.
    destruct (foldM (heads k (snd hd)) (range (S k) m) (s_rows s1, fst (nr, nc), snd (nr, nc), [])) as [h| |] eqn:Eh; cbn [bind] in E; try discriminate E.
    unfold range in Eh. apply (heads_nonempty _ _ _ _ _ _ _ _ _ Eh). lia.
Qed.
End Step.
