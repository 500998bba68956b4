(** * Only matrices that have an inverse are inverted *)
From Verif Require Export LuL InvRowsP.
Local Open Scope Qc_scope.

Section Back.
Variables (m : nat) (l : lu).
Hypothesis W : lu_wf m l.
Lemma upper_injective (x : vec) : (forall i, (i < m)%nat -> sum m (fun k => Umat l i k * x k) = 0) ->
  forall i, (i < m)%nat -> x i = 0.
Proof.
  intros H. assert (G : forall d i, (i < m)%nat -> (m - i <= d)%nat -> x i = 0).
  { induction d as [|d IH]; intros i Li Ld; [lia|]. specialize (H i Li).
    rewrite (sum_ext m _ (fun k => delta i k * (Umat l i i * x i))) in H.
    - rewrite sum_delta_l in H by assumption. rewrite (Umat_diag m) in H by assumption.
      pose proof (w_diag _ _ W i Li) as Nz. destruct (Qcmult_integral _ _ H); [contradiction|assumption].
    - intros k Lk. unfold delta. destruct (Nat.eqb_spec i k) as [->|Ni]; [ring|].
      destruct (Nat.lt_ge_cases k i) as [C|C].
      + rewrite (Umat_lower m) by assumption. ring.
      + rewrite (IH k) by lia. ring. }
  intros i Li. apply (G m); lia.
Qed.
End Back.

Lemma lu_for_inverse m l B : lu_wf m l -> lu_for m l B -> l_upd l = [] -> exists N, is_inverse m N B.
Proof.
  intros W F Eu.
  assert (Inj : forall c : vec, (forall i, (i < m)%nat -> sum m (fun k => B i k * c k) = 0) -> forall i, (i < m)%nat -> c i = 0).
  { intros c Z. pose proof (F c (fun _ => 0)) as H. rewrite Eu in H. cbn [Evec fold_left] in H.
    assert (U : forall i, (i < m)%nat -> (fun k => c (sigma_inv m l k)) i = 0).
    { apply (upper_injective m l W). intros i Li.
      rewrite <- (sum_perm m (sigma m l) (sigma_inv m l) (fun k => Umat l i k * c (sigma_inv m l k)) (sigma_spec m l W) (sigma_inv_spec m l W)).
      rewrite (sum_ext m _ (fun k => Umat l i (sigma m l k) * c k)).
      - rewrite <- H; [reflexivity| |assumption]. intros r Lr. rewrite Z by assumption. apply sum_zero. intros; ring.
      - intros k Lk. now rewrite (proj2 (sigma_spec m l W k Lk)). }
    intros i Li. rewrite <- (proj2 (sigma_spec m l W i Li)). apply (U (sigma m l i)). now apply (sigma_spec m l W). }
  set (N := fun i j => match lu_left l (sbasis j) with Ok cs => den (cs_column cs) i | _ => 0 end).
  assert (R : meq m m (mmul m B N) delta).
  { intros i j Li Lj. unfold mmul, N. destruct (lu_left_solves m l W B F (sbasis j)) as (cs & E & _ & H); [now apply sbasis_wfs|].
    rewrite E, H, den_sbasis by assumption. apply delta_sym. }
  exists N. split; [|exact R]. intros i j Li Lj.
  enough (Z : mmul m N B i j - delta i j = 0) by (rewrite <- (Qcplus_0_r (delta i j)), <- Z; ring).
  apply (Inj (fun i => mmul m N B i j - delta i j)); [|assumption]. intros r Lr.
  rewrite (sum_ext m _ (fun k => B r k * mmul m N B k j - B r k * delta k j)) by (intros; ring).
  rewrite sum_minus, sum_delta_r by assumption. unfold mmul. rewrite mv_assoc.
  rewrite (sum_ext m _ (fun k => delta r k * B k j)).
  - rewrite sum_delta_l by assumption. ring.
  - intros k Lk. f_equal. now apply R.
Qed.

Lemma lu_rows_returns m rows l B : length rows = m ->
  (forall i, (i < m)%nat -> wfs m (nth i rows []) /\ forall j, (j < m)%nat -> den (nth i rows []) j = B i j) ->
  lu_rows rows = Ok l -> exists N, is_inverse m N B.
Proof.
  intros Lr H E. unfold lu_rows in E. rewrite Lr in E. destruct m as [|m1] eqn:Em; [discriminate E|]. rewrite <- Em in *.
  assert (M : (0 < m)%nat) by lia.
  assert (Fw : Forall (wfs m) rows).
  { apply Forall_forall. intros r Hr. destruct (In_nth _ _ [] Hr) as (i & Li & <-). apply H. lia. }
  unfold count_columns in E.
  destruct (count_columns_spec m rows (repeat 0%nat m) Fw (repeat_length _ _)) as (nc & Ec & Lc & Vc).
  rewrite Ec in E. cbn [bind] in E.
  set (s0 := mk_fstate _ _ _ _ _ _) in E.
  assert (V0 : finv m B 0 s0).
  { assert (Ps : perm_ok m (seq 0 m)).
    { split; [apply seq_length|]. split; [apply seq_NoDup|]. intros x Hx. apply in_seq in Hx. lia. }
    assert (Zl : forall i, lrow (repeat [] m1) i = []).
    { intros [|i]; [reflexivity|]. cbn [lrow]. apply nth_repeat. }
    split; cbn [s0 s_rp s_cp s_low s_nr s_nc s_rows]; try assumption.
    - intros; lia.
    - intros i Li. apply H. lia.
    - rewrite repeat_length. lia.
    - intros i. rewrite Zl. exact I.
    - intros i j Li Lj. rewrite !seq_nth by assumption. cbn [Nat.add]. rewrite Zl.
      rewrite sum_zero by (intros; cbn; ring). unfold row. destruct (H i Li) as [_ D]. rewrite D by assumption. ring.
    - split; try assumption.
      + now rewrite map_length.
      + intros i Li. change 0%nat with (@length (nat * Qc) []) at 1. rewrite map_nth. reflexivity.
      + intros j Lj. rewrite Vc, Lr, Nat.sub_0_r. now rewrite nth_repeat. }
  assert (G : forall n k s s', (k + n = m)%nat -> finv m B k s -> foldM fstep (seq k n) s = Ok s' -> finv m B m s').
  { clear. induction n as [|n IH]; intros k s s' E V Ef; cbn [seq foldM] in Ef.
    - injection Ef as <-. rewrite Nat.add_0_r in E. now subst k.
    - destruct (fstep s k) as [s1| |] eqn:Es; cbn [bind] in Ef; try discriminate Ef.
      apply (IH (S k) s1); [lia| |assumption]. apply (fstep_returns m B k s s1); [lia|assumption|assumption]. }
  destruct (foldM fstep (seq 0 m) s0) as [s| |] eqn:Es; cbn [bind] in E; try discriminate E.
  pose proof (G m 0%nat s0 s eq_refl V0 Es) as Vs.
  destruct (finish m B M s Vs) as (up & diag & low & E1 & E2 & Wl & Fl).
  apply (lu_for_inverse m _ B Wl Fl eq_refl).
Qed.
Lemma lu_invert_returns m cols l : length cols = m -> Forall (wfs m) cols -> lu_invert cols = Ok l ->
  exists N, is_inverse m N (cols_mat cols).
Proof.
  intros L F E. unfold lu_invert in E. rewrite L in E.
  destruct (transpose_spec m (cols_mat cols) cols 0 (repeat [] m)) as (rows & Et & Lr & Hr).
  - intros j Lj. split; [|reflexivity]. apply (Forall_nth (wfs m) cols) ; [assumption|]. exact Lj.
  - split; [apply repeat_length|]. intros i Li. split; [|intros; lia].
    replace (nth i (repeat [] m) []) with (@nil (nat * Qc)) by (symmetry; apply nth_repeat). exact Logic.I.
  - rewrite Et in E. cbn [bind] in E. apply (lu_rows_returns m rows l); try assumption. intros i Li.
    change (@length (list (nat * Qc)) cols) with (@length svec cols) in Hr. rewrite L in Hr. now apply Hr.
Qed.
Lemma bir_invert_returns m cols l : length cols = m -> Forall (wfs m) cols -> bir_invert cols = Ok l ->
  exists N, is_inverse m N (cols_mat cols).
Proof.
  intros L F E. unfold bir_invert in E. destruct (lu_invert cols) as [l'| |] eqn:El; cbn [bind] in E; try discriminate E.
  now apply (lu_invert_returns m cols l').
Qed.
