(** * The laws of the LU decomposition *)
From Verif Require Export LuG.

(** ** The counters *)
Lemma csum_shift a n f : csum (S a) n f = csum a n (fun x => f (S x)).
Proof. unfold csum. rewrite <- seq_shift, map_map. reflexivity. Qed.
Lemma count_row m : forall r lo counts, fwf lo m r -> length counts = m ->
  exists c', foldM (fun counts '(j, _) => add_at counts j 1) r counts = Ok c' /\ length c' = m /\
    forall j, nth j c' 0%nat = (nth j counts 0 + nz (den r j))%nat.
Proof.
  induction r as [|[j v] r IH]; intros lo counts W L; cbn [foldM].
  - exists counts. split; [reflexivity|]. split; [assumption|]. intros j. cbn [den]. rewrite (nz_0 0) by reflexivity. lia.
  - destruct W as (W1 & W2 & W3). destruct (add_at_spec counts j 1) as (c1 & -> & L1 & V1); [lia|]. cbn [bind].
    destruct (IH (S j) c1 W3 ltac:(lia)) as (c' & -> & L' & V'). exists c'. split; [reflexivity|]. split; [assumption|].
    intros k. rewrite V', V1. cbn [den]. destruct (Nat.eqb_spec k j) as [->|N].
    + rewrite (den_below (S j) m r) by (assumption || lia). rewrite Qcplus_0_r, (nz_1 v), (nz_0 0) by (assumption || reflexivity). lia.
    + now rewrite Qcplus_0_l.
Qed.
Lemma count_columns_spec m : forall rows counts, Forall (wfs m) rows -> length counts = m ->
  exists c', foldM (fun counts row => foldM (fun counts '(j, _) => add_at counts j 1) row counts) rows counts = Ok c' /\
    length c' = m /\
    forall j, nth j c' 0%nat = (nth j counts 0 + csum 0 (length rows) (fun x => nz (den (row rows x) j)))%nat.
Proof.
  induction rows as [|r rows IH]; intros counts H L; cbn [foldM].
  - exists counts. split; [reflexivity|]. split; [assumption|]. intros j. cbn. lia.
  - inversion H as [|? ? H1 H2]; subst. destruct (count_row (length counts) r 0 counts H1 eq_refl) as (c1 & -> & L1 & V1). cbn [bind].
    destruct (IH c1) as (c' & -> & L' & V'); [assumption|assumption|]. exists c'. split; [reflexivity|]. split; [assumption|].
    intros j. rewrite V', V1. cbn [length]. rewrite csum_S, csum_shift. unfold row at 2. cbn [nth]. fold (row rows).
    rewrite <- Nat.add_assoc. reflexivity.
Qed.

(** ** Splitting the rows *)
Lemma split_upper_eq : forall rows ts ds i up diag, length ts = length rows -> length ds = length rows ->
  (forall x, (x < length rows)%nat -> exists k t, row rows x = (k, nthq ds x) :: t /\ mapM dec_index t = Ok (nth x ts [])) ->
  split_upper i rows up diag = let* up' := transpose_from i ts up in Ok (up', diag ++ ds).
Proof.
  induction rows as [|r rows IH]; intros ts ds i up diag L1 L2 H.
  - destruct ts; [|discriminate]. destruct ds; [|discriminate]. cbn. now rewrite app_nil_r.
  - destruct ts as [|t' ts]; [discriminate|]. destruct ds as [|d ds]; [discriminate|].
    destruct (H 0%nat ltac:(cbn; lia)) as (k & t & E1 & E2). unfold row in E1. cbn [nth nthq] in E1, E2.
    cbn [split_upper transpose_from]. unfold nthq in E1. cbn [nth] in E1. rewrite E1, E2. cbn [bind].
    destruct (push_column i t' up) as [up1| |]; cbn [bind]; try reflexivity.
    rewrite (IH ts ds) by (try (cbn in *; lia); intros x Lx; apply (H (S x)); cbn; lia).
    destruct (transpose_from (S i) ts up1); cbn [bind]; try reflexivity. now rewrite <- app_assoc.
Qed.

Section Final.
Variables (m : nat) (N B : mat).
Hypothesis M : (0 < m)%nat.
Hypothesis NB : is_inverse m N B.

Lemma finish s : finv m B m s -> exists up diag low,
  split_upper 0 (s_rows s) (repeat [] (m - 1)) [] = Ok (up, diag) /\
  transpose_from 1 (s_low s) (repeat [] (m - 1)) = Ok low /\
  let l := mk_lu (full_invert (full_new (s_rp s))) (full_invert (full_new (s_cp s))) low up diag [] in
  lu_wf m l /\ lu_for m l B.
Proof.
  intros [Vrp Vcp Vlr Vd Vt Vll Vl Ve Vc].
  (* the rows *)
  assert (Hrow : forall i, (i < m)%nat -> exists t, row (s_rows s) i = (i, den (row (s_rows s) i) i) :: t /\ fwf (S i) m t).
  { intros i Li. destruct (Vd i Li) as [W D]. destruct (fwf_head i m _ W) as [(v & C & E & Nv & _ & HC)|W'].
    - exists C. split; [|assumption]. rewrite E at 1. do 2 f_equal. rewrite E. cbn [den].
      rewrite Nat.eqb_refl, (den_below (S i) m C) by (assumption || lia). ring.
    - exfalso. apply D. apply (den_below (S i) m); assumption || lia. }
  set (ts := map (fun r => match mapM dec_index (tl r) with Ok t => t | _ => [] end) (s_rows s)).
  set (ds := map (fun i => den (row (s_rows s) i) i) (seq 0 m)).
  assert (Lts : length ts = m) by (unfold ts; now rewrite map_length).
  assert (Lds : length ds = m) by (unfold ds; now rewrite map_length, seq_length).
  assert (Hds : forall i, (i < m)%nat -> nthq ds i = den (row (s_rows s) i) i).
  { intros i Li. unfold nthq, ds. rewrite (nth_indep _ 0 (den (row (s_rows s) 0) 0%nat)) by now rewrite map_length, seq_length.
    rewrite (map_nth (fun i => den (row (s_rows s) i) i)). now rewrite seq_nth. }
  assert (Hts : forall i, (i < m)%nat -> exists t, row (s_rows s) i = (i, nthq ds i) :: t /\
     mapM dec_index t = Ok (nth i ts []) /\ fwf i (m - 1) (nth i ts []) /\
     forall c, den (nth i ts []) c = if Nat.eqb (S c) i then 0 else den (row (s_rows s) i) (S c)).
  { intros i Li. destruct (Hrow i Li) as (t & E & W). exists t. rewrite Hds by assumption. split; [assumption|].
    assert (W' : fwf (S i) (S (m - 1)) t) by now replace (S (m - 1)) with m by lia.
    destruct (mapM_dec i (m - 1) t W') as (t' & E' & Wt & _ & Et).
    assert (nth i ts [] = t') as ->.
    { unfold ts. rewrite (nth_indep _ [] (match mapM dec_index (tl []) with Ok t => t | _ => [] end)) by (rewrite map_length; lia).
      rewrite (map_nth (fun r => match mapM dec_index (tl r) with Ok t => t | _ => [] end)).
      fold (row (s_rows s) i). rewrite E. cbn [tl]. now rewrite E'. }
    split; [assumption|]. split; [assumption|]. intros c. rewrite E, Et. cbn [den]. rewrite den_shift_up.
    destruct (Nat.eqb_spec (S c) i) as [C|C].
    - apply (den_below i (m - 1)); assumption || lia.
    - ring. }
  set (NU := fun c i : nat => if Nat.eqb (S c) i then 0 else den (row (s_rows s) i) (S c)).
  destruct (transpose_spec (m - 1) NU ts 0 (repeat [] (m - 1))) as (up & Eu & Lu & Hu).
  { intros i Li. change (@length (list (nat * Qc)) ts) with (@length svec ts) in Li. rewrite Lts in Li.
    destruct (Hts i Li) as (t & _ & _ & W & D). split; [apply fwf_weaken with i; [lia|assumption]|].
    intros c Lc. apply D. }
  { split; [apply repeat_length|]. intros i Li. split; [|intros; lia].
    replace (nth i (repeat [] (m - 1)) []) with (@nil (nat * Qc)) by (symmetry; apply nth_repeat). exact I. }
  change (@length (list (nat * Qc)) ts) with (@length svec ts) in Hu. rewrite Lts in Hu. cbn [Nat.add] in Hu.
  set (NL := fun c i : nat => den (lrow (s_low s) i) c).
  destruct (transpose_spec (m - 1) NL (s_low s) 1 (repeat [] (m - 1))) as (low & El & Ll & Hl).
  { intros i Li. change (@length (list (nat * Qc)) (s_low s)) with (@length svec (s_low s)) in Li. rewrite Vll in Li. split; [|reflexivity].
    specialize (Vl (S i)). cbn [lrow] in Vl. apply fwf_grow with (Nat.min m (S i)); [lia|assumption]. }
  { split; [apply repeat_length|]. intros i Li.
    replace (nth i (repeat [] (m - 1)) []) with (@nil (nat * Qc)) by (symmetry; apply nth_repeat). split; [exact I|].
    intros l Lli. assert (l = 0%nat) as -> by lia. reflexivity. }
  change (@length (list (nat * Qc)) (s_low s)) with (@length svec (s_low s)) in Hl. rewrite Vll in Hl.
  replace (1 + (m - 1))%nat with m in Hl by lia.
  exists up, ds, low. split; [|split; [assumption|]].
  { rewrite (split_upper_eq _ ts ds) by (try lia; intros x Lx; rewrite Vlr in Lx; destruct (Hts x Lx) as (t & A1 & A2 & _); eauto).
    rewrite Eu. reflexivity. }
  destruct Vrp as (Lr & Nr & Br). destruct Vcp as (Lc & Nc & Bc).
  pose proof (full_new_spec m _ Lr Nr Br) as Fr. pose proof (full_new_spec m _ Lc Nc Bc) as Fc.
  set (l := mk_lu _ _ _ _ _ _). cbn zeta.
  assert (W : lu_wf m l).
  { split; try assumption; cbn [l l_rp l_cp l_low l_up l_diag l_upd].
    - now apply full_invert_spec.
    - now apply full_invert_spec.
    - intros j Lj. destruct (Hl j Lj) as [Wj Dj]. apply fwf_low with 0%nat; [|assumption].
      intros i Li. rewrite Dj by lia. unfold NL. apply (den_above 0 (Nat.min m i)); [apply Vl|lia].
    - intros j Lj. destruct (Hu j Lj) as [Wj Dj]. apply fwf_dim with m; [|assumption].
      intros i Li. destruct (Nat.lt_ge_cases i m) as [C|C]; [|now apply (den_above 0 m)].
      rewrite Dj by assumption. unfold NU. destruct (Nat.eqb_spec (S j) i); [reflexivity|].
      apply (den_below i m); [now apply Vd|lia].
    - intros i Li. rewrite Hds by assumption. now apply Vd.
    - intros e t []. }
  split; [assumption|].
  assert (HL : forall i t, (i < m)%nat -> (t < m)%nat -> Lmat l i t = delta i t + den (lrow (s_low s) i) t).
  { intros i t Li Lt. unfold Lmat. f_equal. cbn [l l_low]. destruct (Nat.lt_ge_cases t (m - 1)) as [C|C].
    - destruct (Hl t C) as [_ D]. now apply D.
    - rewrite nth_overflow by (change (@length (list (nat * Qc)) low <= t)%nat; lia). cbn [den]. symmetry. apply (den_above 0 (Nat.min m i)); [apply Vl|lia]. }
  assert (HU : forall i j, (i < m)%nat -> (j < m)%nat -> Umat l i j = den (row (s_rows s) i) j).
  { intros i j Li Lj. unfold Umat. cbn [l l_up l_diag]. rewrite Hds by assumption. destruct j as [|j].
    - unfold delta. destruct (Nat.eqb_spec i 0) as [->|]; [ring|].
      rewrite (den_below i m (row (s_rows s) i) 0%nat) by (try apply Vd; lia). ring.
    - destruct (Hu j ltac:(lia)) as [_ D]. rewrite D by assumption. unfold NU, delta.
      rewrite (Nat.eqb_sym i (S j)). destruct (Nat.eqb_spec (S j) i) as [<-|]; ring. }
  intros c w Hw i Li. cbn [l l_upd Evec fold_left].
  set (cp := fun j => nth j (s_cp s) 0%nat).
  assert (Es : forall k, sigma m l k = nth k (f_bw (full_new (s_cp s))) 0%nat) by reflexivity.
  set (u := fun i => sum m (fun j => Umat l i j * c (cp j))).
  assert (G : sum m (fun k => Umat l i (sigma m l k) * c k) = u i).
  { unfold u. rewrite <- (sum_perm m (sigma m l) cp (fun j => Umat l i j * c (cp j))).
    - apply sum_ext. intros k Lk. assert (Ecp : cp (sigma m l k) = k) by exact (proj2 (fu_b _ _ Fc k Lk)).
      now rewrite Ecp.
    - intros k Lk. apply (fu_b _ _ Fc k Lk).
    - intros k Lk. apply (fu_f _ _ Fc k Lk). }
  rewrite G.
  enough (Z : w i - u i = 0). { rewrite <- (Qcplus_0_r (u i)), <- Z. ring. }
  revert i Li G. enough (Z : forall i, (i < m)%nat -> w i - u i = 0) by (intros; now apply Z).
  apply (lower_injective m l (fun i => w i - u i) W). intros i Li.
  rewrite (sum_ext m _ (fun k => Lmat l i k * w k - Lmat l i k * u k)) by (intros; ring).
  rewrite sum_minus.
  assert (Lri : (nth i (s_rp s) 0 < m)%nat) by (apply (fu_f _ _ Fr i Li)).
  specialize (Hw (nth i (s_rp s) 0%nat) Lri).
  assert (Erp : nth (nth i (s_rp s) 0%nat) (f_fw (l_rp l)) 0%nat = i) by exact (proj2 (fu_f _ _ Fr i Li)).
  rewrite Erp in Hw. rewrite Hw. unfold u. rewrite mv_assoc.
  rewrite <- (sum_perm m cp (sigma m l) (fun k => B (nth i (s_rp s) 0%nat) k * c k)).
  2:{ intros k Lk. apply (fu_f _ _ Fc k Lk). }
  2:{ intros k Lk. apply (fu_b _ _ Fc k Lk). }
  rewrite <- sum_minus. apply sum_zero. intros j Lj. unfold cp at 1. rewrite Ve by assumption.
  rewrite (sum_ext m (fun k => Lmat l i k * Umat l k j) (fun k => delta i k * den (row (s_rows s) k) j +
     den (lrow (s_low s) i) k * den (row (s_rows s) k) j)).
  2:{ intros k Lk. rewrite HL, HU by assumption. ring. }
  rewrite sum_plus, sum_delta_l by assumption. ring.
Qed.

Lemma lu_rows_spec rows : length rows = m ->
  (forall i, (i < m)%nat -> wfs m (nth i rows []) /\ forall j, (j < m)%nat -> den (nth i rows []) j = B i j) ->
  exists l, lu_rows rows = Ok l /\ lu_wf m l /\ lu_for m l B.
Proof.
  intros Lr H. unfold lu_rows. rewrite Lr. destruct m as [|m1] eqn:Em; [lia|]. rewrite <- Em in *.
  assert (Fw : Forall (wfs m) rows).
  { apply Forall_forall. intros r Hr. destruct (In_nth _ _ [] Hr) as (i & Li & <-). apply H. lia. }
  unfold count_columns.
  destruct (count_columns_spec m rows (repeat 0%nat m) Fw (repeat_length _ _)) as (nc & -> & Lc & Vc). cbn [bind].
  set (s0 := mk_fstate _ _ _ _ _ _).
  assert (V0 : finv m B 0 s0).
  { assert (Ps : perm_ok m (seq 0 m)).
    { split; [apply seq_length|]. split; [apply seq_NoDup|]. intros x Hx. apply in_seq in Hx. lia. }
    assert (Zl : forall i, lrow (repeat [] m1) i = []).
    { intros [|i]; [reflexivity|]. cbn [lrow]. apply nth_repeat. }
    split; cbn [s0 s_rp s_cp s_low s_nr s_nc s_rows]; try assumption.
    - intros; lia.
    - intros i Li. apply H. lia.
    - rewrite repeat_length. lia.
    - intros i. rewrite Zl. exact I.
    - intros i j Li Lj. rewrite !seq_nth by assumption. cbn [Nat.add]. rewrite Zl.
      rewrite sum_zero by (intros; cbn; ring). unfold row. destruct (H i Li) as [_ D]. rewrite D by assumption. ring.
    - split; try assumption.
      + now rewrite map_length.
      + intros i Li. change 0%nat with (@length (nat * Qc) []) at 1. rewrite map_nth. reflexivity.
      + intros j Lj. rewrite Vc, Lr, Nat.sub_0_r. now rewrite nth_repeat. }
  assert (G : forall n k s, (k + n = m)%nat -> finv m B k s -> exists s', foldM fstep (seq k n) s = Ok s' /\ finv m B m s').
  { clear - NB. induction n as [|n IH]; intros k s E V; cbn [seq foldM].
    - exists s. replace m with k at 2 by lia. rewrite Nat.add_0_r in E. subst k. auto.
    - destruct (fstep_spec m N B NB k s ltac:(lia) V) as (s' & -> & V'). cbn [bind]. apply IH; [lia|assumption]. }
  destruct (G m 0%nat s0 eq_refl V0) as (s & -> & Vs). cbn [bind].
  destruct (finish s Vs) as (up & diag & low & E1 & E2 & Wl & Fl).
  replace m1 with (m - 1)%nat by lia. rewrite E1. cbn [bind]. rewrite E2. cbn [bind fst snd].
  eexists. split; [reflexivity|]. split; assumption.
Qed.
End Final.
Lemma lu_invert_spec m N cols : (0 < m)%nat -> length cols = m -> Forall (wfs m) cols ->
  is_inverse m N (cols_mat cols) -> exists l, lu_invert cols = Ok l /\ lu_wf m l /\ lu_for m l (cols_mat cols).
Proof.
  intros M L F I. unfold lu_invert. rewrite L.
  destruct (transpose_spec m (cols_mat cols) cols 0 (repeat [] m)) as (rows & E & Lr & Hr).
  - intros j Lj. split; [|reflexivity]. apply (Forall_nth (wfs m) cols) ; [assumption|]. exact Lj.
  - split; [apply repeat_length|]. intros i Li. split; [|intros; lia].
    replace (nth i (repeat [] m) []) with (@nil (nat * Qc)) by (symmetry; apply nth_repeat). exact Logic.I.
  - rewrite E. cbn [bind]. apply (lu_rows_spec m N); try assumption. intros i Li.
    change (@length (list (nat * Qc)) cols) with (@length svec cols) in Hr. rewrite L in Hr. now apply Hr.
Qed.
Lemma lu_identity_spec m l : lu_identity m = Ok l -> lu_wf m l /\ lu_for m l delta.
Proof.
  destruct m as [|k]; [discriminate|]. intros [= <-].
  assert (Nr : forall i, nth i (repeat [] k) [] = @nil (nat * Qc)) by (intros; apply nth_repeat).
  set (l := mk_lu _ _ _ _ _ _).
  assert (W : lu_wf (S k) l).
  { split; cbn [l l_rp l_cp l_low l_up l_diag l_upd].
    - lia.
    - apply full_identity_spec.
    - apply full_identity_spec.
    - rewrite repeat_length. lia.
    - intros j _. rewrite Nr. exact I.
    - rewrite repeat_length. lia.
    - intros j _. rewrite Nr. exact I.
    - cbn [length]. now rewrite repeat_length.
    - intros i Li. change (1 :: repeat 1 k) with (repeat 1 (S k)). unfold nthq.
      rewrite (nth_indep _ 0 1) by (rewrite repeat_length; assumption). rewrite nth_repeat. discriminate.
    - intros e t []. }
  split; [assumption|]. intros c w Hw i Li. cbn [l l_upd Evec fold_left].
  assert (HL : forall a b, Lmat l a b = delta a b).
  { intros a b. unfold Lmat. cbn [l l_low]. rewrite Nr. cbn. ring. }
  assert (HU : forall a b, (a < S k)%nat -> Umat l a b = delta a b).
  { intros a b La. unfold Umat. cbn [l l_up l_diag]. unfold nthq.
    change (1 :: repeat 1 k) with (repeat 1 (S k)).
    rewrite (nth_indep _ 0 1) by (rewrite repeat_length; assumption). rewrite nth_repeat.
    destruct b; [ring|]. rewrite Nr. cbn [den]. ring. }
  specialize (Hw i Li). cbn [l l_rp full_identity f_fw] in Hw. fold l in Hw.
  rewrite seq_nth in Hw by assumption. cbn [Nat.add] in Hw.
  rewrite (sum_ext _ _ (fun k0 => delta i k0 * w k0)) in Hw by (intros; now rewrite HL).
  rewrite !sum_delta_l in Hw by assumption. rewrite Hw.
  rewrite (sum_ext _ _ (fun k0 => delta i k0 * c k0)).
  - now rewrite sum_delta_l.
  - intros j Lj. rewrite HU by assumption. unfold sigma. cbn [l l_upd l_cp full_identity f_fw upd_fwd fold_left].
    now rewrite seq_nth.
Qed.

(** ** The laws *)
Definition lu_rep (m : nat) (l : lu) (N : mat) : Prop :=
  lu_wf m l /\ exists B, is_inverse m N B /\ lu_for m l B.

Definition LU_laws : BILaws LU.
Proof.
  refine (mk_laws LU lu_rep (fun m => (1 <= m)%nat) (fun m => (1 <= m)%nat) (fun m => (2 <= m)%nat)
    _ _ _ _ _ _ _ _ _ _ _ _ _).
  - intros m b N N' E (W & B & I & F). split; [assumption|]. exists B. split; [|assumption].
    apply (inverse_ext m N N' B B); try assumption. apply meq_refl.
  - intros m b E. cbn in E. destruct (lu_identity_spec m b E) as [W F]. split; [assumption|].
    exists delta. split; [apply delta_inverse|assumption].
  - intros m L. cbn. destruct m; [lia|]. eexists. reflexivity.
  - intros m cols b N L F I E. cbn in E. destruct m as [|m].
    + exfalso. destruct cols; [|discriminate]. cbn in E. discriminate.
    + destruct (lu_invert_spec (S m) N cols ltac:(lia) L F I) as (l & E' & W & H).
      rewrite E in E'. injection E' as <-. split; [assumption|]. now exists (cols_mat cols).
  - intros m cols N L1 L F I. cbn. destruct (lu_invert_spec m N cols L1 L F I) as (l & E & _). now exists l.
  - intros m b N a (W & B & I & F) Wa. cbn. now apply (lu_left_inverse m b W N B).
  - intros m b N a c p b' w (W & B & I & F) Wa E Lp Np Ec. cbn in *.
    destruct (Nat.lt_ge_cases m 2) as [C|C].
    + exfalso. unfold lu_change in Ec. pose proof (w_pos _ _ W). assert (m = 1%nat) as -> by lia.
      assert (Lu := w_lup _ _ W). assert (Eu : l_up b = []) by (destruct (l_up b); [reflexivity|discriminate]).
      rewrite (full_forward_ok 1) in Ec by (try assumption; apply W). cbn [bind] in Ec.
      destruct (lu_left_spec 1 b W a Wa) as (cs & x & w0 & E' & _). clear E'.
      set (t := upd_forward b _) in Ec.
      destruct (foldM _ (range (S t) (lu_m b)) []) as [ub| |]; cbn [bind] in Ec; try discriminate.
      destruct (upper_right b _ _) as [r| |]; cbn [bind] in Ec; try discriminate.
      destruct (foldM _ ub (l_up b)) as [up| |] eqn:Ef; cbn [bind] in Ec; try discriminate.
      assert (Lup : length up = 0%nat).
      { rewrite Eu in Ef. clear - Ef. destruct ub as [|[[j v] k] ub]; cbn [foldM] in Ef.
        - injection Ef as <-. reflexivity.
        - unfold index in Ef. cbn in Ef. destruct (j - 1)%nat; cbn in Ef; discriminate. }
      destruct (update_spike _ _) as [sp| |]; cbn [bind] in Ec; try discriminate.
      unfold set_index in Ec at 1. rewrite Lup in Ec. cbn in Ec. discriminate.
    + destruct (lu_change_spec m b B a p c C W F Wa E Lp Np) as (l' & E' & W' & F').
      rewrite E' in Ec. injection Ec as <- <-. split; [reflexivity|]. split; [assumption|].
      exists (set_col B p (den a)). split; [|assumption]. apply pivot_inverse; try assumption.
      destruct (lu_left_inverse m b W N B I F a Wa) as (cs & E1 & _ & D). rewrite E in E1. injection E1 as <-. exact D.
  - intros m b N a c p M (W & B & I & F) Wa E Lp Np. cbn in *.
    destruct (lu_change_spec m b B a p c M W F Wa E Lp Np) as (l' & E' & _). eauto.
  - intros m b N _ _ H. cbn in *. lia.
  - intros m b N r (W & B & I & F) Wr _. cbn. now apply (lu_right_inverse m b W N B).
  - intros m b N i a (W & B & I & F) Wa Li. cbn. unfold lu_elem.
    destruct (lu_left_inverse m b W N B I F a Wa) as (cs & -> & Wc & D). cbn [bind]. eexists. split; [reflexivity|].
    rewrite <- D by assumption. rewrite (sget_spec m) by assumption.
    destruct (qzero _) eqn:Z; qb; [assumption|reflexivity].
  - intros m b N i (W & B & I & F) Li. cbn. now apply (lu_row_spec m b W N B).
  - intros remove m b N B rm E. discriminate E.
Defined.
