(** * The laws of the explicit basis inverse *)
From Verif Require Export LuL InvRows.

Definition bir_rep (m : nat) (rows : list svec) (N : mat) : Prop :=
  length rows = m /\ forall i, (i < m)%nat ->
    wfs m (nth i rows []) /\ forall j, (j < m)%nat -> den (nth i rows []) j = N i j.

Lemma bir_elem_spec m rows N i a : bir_rep m rows N -> wfs m a -> (i < m)%nat ->
  bir_elem rows i a = Ok (let e := sum m (fun k => N i k * den a k) in if qzero e then None else Some e).
Proof.
  intros [L H] Wa Li. unfold bir_elem. rewrite (index_Ok rows i []) by lia. cbn [bind].
  destruct (H i Li) as [W D]. rewrite (sdot_spec m) by assumption.
  rewrite (sum_ext m (fun k => den (nth i rows []) k * den a k) (fun k => N i k * den a k)); [reflexivity|].
  intros k Lk. now rewrite D.
Qed.
Lemma bir_left_spec m rows N a : bir_rep m rows N -> wfs m a ->
  exists c, bir_left rows a = Ok c /\ wfs m c /\
    forall i, (i < m)%nat -> den c i = sum m (fun k => N i k * den a k).
Proof.
  intros R Wa. unfold bir_left. rewrite (proj1 R). set (v := fun i => sum m (fun k => N i k * den a k)).
  assert (G : forall n i acc, (i + n = m)%nat -> fwf 0 i acc -> exists c,
    foldM (fun acc i => let* e := bir_elem rows i a in
                      Ok (match e with Some v => acc ++ [(i, v)] | None => acc end)) (seq i n) acc = Ok c /\
    wfs m c /\ (forall j, (j < i)%nat -> den c j = den acc j) /\ forall j, (i <= j < m)%nat -> den c j = v j).
  { induction n as [|n IH]; intros i acc E W; cbn [seq foldM].
    - exists acc. assert (i = m) as -> by lia. split; [reflexivity|]. split; [assumption|]. split; [reflexivity|].
      intros; lia.
    - rewrite (bir_elem_spec m rows N) by (assumption || lia). cbn [bind]. fold (v i).
      assert (A : fwf 0 (S i) (match (let e := v i in if qzero e then None else Some e) with
                   Some v => acc ++ [(i, v)] | None => acc end) /\
        (forall j, (j < i)%nat -> den (match (let e := v i in if qzero e then None else Some e) with
                   Some v => acc ++ [(i, v)] | None => acc end) j = den acc j) /\
        den (match (let e := v i in if qzero e then None else Some e) with
                   Some v => acc ++ [(i, v)] | None => acc end) i = v i).
      { cbn zeta. destruct (qzero (v i)) eqn:Z; qb.
        - split; [apply fwf_grow with i; [lia|assumption]|]. split; [reflexivity|]. rewrite Z.
          apply (den_above 0 i); assumption || lia.
        - split; [apply fwf_snoc; [assumption|lia|assumption]|]. split.
          + intros j Lj. rewrite den_app. cbn [den]. rewrite (proj2 (Nat.eqb_neq j i)) by lia. ring.
          + rewrite den_app. cbn [den]. rewrite Nat.eqb_refl, (den_above 0 i) by (assumption || lia). ring. }
      cbn zeta in A. destruct A as (A1 & A2 & A3).
      destruct (IH (S i) _ ltac:(lia) A1) as (c & -> & Wc & D1 & D2). exists c. split; [reflexivity|].
      split; [assumption|]. split.
      + intros j Lj. rewrite D1 by lia. now apply A2.
      + intros j Lj. destruct (Nat.eq_dec j i) as [->|]; [rewrite D1 by lia; assumption|apply D2; lia]. }
  destruct (G m 0%nat [] eq_refl I) as (c & -> & Wc & _ & D). exists c. split; [reflexivity|]. split; [assumption|].
  intros i Li. apply D. lia.
Qed.
Lemma bir_right_fold m rows N : bir_rep m rows N -> forall r lo total, fwf lo m r -> wfs m total ->
  exists v, foldM (fun total '(i, f) => let* row := index rows i in Ok (add_mult f total row)) r total = Ok v /\
    wfs m v /\ forall j, (j < m)%nat -> den v j = den total j + sum m (fun k => den r k * N k j).
Proof.
  intros [L H]. induction r as [|[i f] r IH]; intros lo total W Wt; cbn [foldM].
  - exists total. split; [reflexivity|]. split; [assumption|]. intros j Lj.
    rewrite sum_zero by (intros; cbn; ring). ring.
  - destruct W as (W1 & W2 & W3). rewrite (index_Ok rows i []) by lia. cbn [bind].
    destruct (H i ltac:(lia)) as [Wr Dr].
    destruct (IH (S i) (add_mult f total (nth i rows [])) W3) as (v & -> & Wv & Dv).
    { now apply add_mult_wfs. }
    exists v. split; [reflexivity|]. split; [assumption|]. intros j Lj. rewrite Dv by assumption.
    rewrite (den_add_mult f m) by assumption. rewrite Dr by assumption.
    rewrite (sum_ext m (fun k => den ((i, f) :: r) k * N k j) (fun k => delta i k * (f * N k j) + den r k * N k j)).
    + rewrite sum_plus, sum_delta_l by lia. ring.
    + intros k Lk. cbn [den]. unfold delta. rewrite (Nat.eqb_sym i k). destruct (Nat.eqb k i); ring.
Qed.
Lemma bir_right_spec m rows N r : bir_rep m rows N -> wfs m r -> r <> [] ->
  exists v, bir_right rows r = Ok v /\ wfs m v /\
    forall j, (j < m)%nat -> den v j = sum m (fun k => den r k * N k j).
Proof.
  intros R W Ne. destruct r as [|[i f] r]; [contradiction|]. destruct W as (W1 & W2 & W3). cbn [bir_right].
  rewrite (index_Ok rows i []) by (destruct R; lia). cbn [bind].
  destruct (proj2 R i ltac:(lia)) as [Wr Dr].
  destruct (bir_right_fold m rows N R r (S i) (smul (nth i rows []) f) W3) as (v & -> & Wv & Dv).
  { now apply fwf_map; [intros; now apply Qc_mul_neq0|]. }
  exists v. split; [reflexivity|]. split; [assumption|]. intros j Lj. rewrite Dv by assumption. rewrite den_smul, Dr by assumption.
  rewrite (sum_ext m (fun k => den ((i, f) :: r) k * N k j) (fun k => delta i k * (f * N k j) + den r k * N k j)).
  - rewrite sum_plus, sum_delta_l by lia. ring.
  - intros k Lk. cbn [den]. unfold delta. rewrite (Nat.eqb_sym i k). destruct (Nat.eqb k i); ring.
Qed.
Lemma bir_change_spec m rows N p c : bir_rep m rows N -> wfs m c -> (p < m)%nat -> den c p <> 0 ->
  exists rows', bir_change rows p c = Ok (rows', c) /\ bir_rep m rows' (pivot N p (den c)).
Proof.
  intros [L H] Wc Lp Np. unfold bir_change, bir_normalize.
  rewrite (sget_nonzero m) by assumption. cbn [ofopt bind].
  rewrite (index_Ok rows p []) by lia. cbn [bind].
  destruct (H p Lp) as [Wp Dp].
  set (mid := sdiv (nth p rows []) (den c p)).
  assert (Wm : wfs m mid).
  { now apply sdiv_wfs. }
  assert (Dm : forall j, (j < m)%nat -> den mid j = N p j / den c p).
  { intros j Lj. unfold mid. rewrite den_sdiv. now rewrite Dp. }
  unfold bir_reduce. rewrite (index_Ok _ p []) by (rewrite upd_length; lia). cbn [bind].
  rewrite upd_nth, Nat.eqb_refl by lia. fold mid.
  assert (G : forall col lo rows1, fwf lo m col -> length rows1 = m ->
     (forall i, (i < m)%nat -> wfs m (nth i rows1 [])) ->
     exists rows', foldM (fun rows '(i, v) =>
           if Nat.eqb i p then Ok rows
           else let* row := index rows i in
                Ok (upd rows i (add_mult (- v) row mid))) col rows1 = Ok rows' /\ length rows' = m /\
       forall i, (i < m)%nat -> wfs m (nth i rows' []) /\ forall j, (j < m)%nat ->
         den (nth i rows' []) j = if Nat.eqb i p then den (nth i rows1 []) j else
            den (nth i rows1 []) j - den col i * den mid j).
  { induction col as [|[i v] col IH]; intros lo rows1 W L1 W1; cbn [foldM].
    - exists rows1. split; [reflexivity|]. split; [assumption|]. intros i Li. split; [now apply W1|].
      intros j Lj. cbn [den]. destruct (Nat.eqb i p); ring.
    - destruct W as (A1 & A2 & A3). destruct (Nat.eqb_spec i p) as [->|Ni].
      + cbn [bind]. destruct (IH (S p) rows1 A3 L1 W1) as (rows' & -> & L' & V'). exists rows'.
        split; [reflexivity|]. split; [assumption|]. intros i Li. destruct (V' i Li) as [V1 V2]. split; [assumption|].
        intros j Lj. rewrite V2 by assumption. cbn [den]. destruct (Nat.eqb_spec i p); [reflexivity|]. ring.
      + rewrite (index_Ok rows1 i []) by lia. cbn [bind].
        assert (Nv : - v <> 0). { intros C. apply A2. rewrite <- (Qcopp_involutive v), C. reflexivity. }
        destruct (IH (S i) (upd rows1 i (add_mult (- v) (nth i rows1 []) mid)) A3) as (rows' & -> & L' & V').
        { now rewrite upd_length. }
        { intros k Lk. rewrite upd_nth by lia. destruct (Nat.eqb k i); [|now apply W1].
          apply add_mult_wfs; try assumption. apply W1. lia. }
        exists rows'. split; [reflexivity|]. split; [assumption|]. intros k Lk. destruct (V' k Lk) as [V1 V2].
        split; [assumption|]. intros j Lj. rewrite V2 by assumption. rewrite upd_nth by lia. cbn [den].
        destruct (Nat.eqb_spec k i) as [->|Nk]; [|destruct (Nat.eqb k p); ring].
        rewrite (proj2 (Nat.eqb_neq i p)) by assumption.
        rewrite (den_add_mult (- v) m) by (try assumption; apply W1; lia).
        rewrite (den_below (S i) m col) by (assumption || lia). ring. }
  destruct (G c 0%nat (upd rows p mid) Wc) as (rows' & -> & L' & V').
  { now rewrite upd_length. }
  { intros i Li. rewrite upd_nth by lia. destruct (Nat.eqb i p); [assumption|now apply H]. }
  cbn [bind]. exists rows'. split; [reflexivity|]. split; [assumption|]. intros i Li. destruct (V' i Li) as [V1 V2].
  split; [assumption|]. intros j Lj. rewrite V2 by assumption. rewrite upd_nth by lia. unfold pivot.
  destruct (Nat.eqb_spec i p) as [->|Ni].
  - now apply Dm.
  - rewrite Dm by assumption. destruct (H i Li) as [_ Di]. now rewrite Di.
Qed.
Lemma bir_invert_spec m cols N : (1 <= m)%nat -> length cols = m -> Forall (wfs m) cols ->
  is_inverse m N (cols_mat cols) -> exists rows, bir_invert cols = Ok rows /\ bir_rep m rows N.
Proof.
  intros M L F I. unfold bir_invert. rewrite L.
  destruct (lu_invert_spec m N cols M L F I) as (f & -> & W & H). cbn [bind].
  assert (G : forall n j, (j + n = m)%nat -> exists inv,
    mapM (fun j => let* c := lu_left f (sbasis j) in Ok (cs_column c)) (seq j n) = Ok inv /\ length inv = n /\
    forall x, (x < n)%nat -> wfs m (nth x inv []) /\ forall i, (i < m)%nat -> den (nth x inv []) i = N i (j + x)%nat).
  { induction n as [|n IH]; intros j E; cbn [seq mapM].
    - exists []. split; [reflexivity|]. split; [reflexivity|]. intros; lia.
    - destruct (lu_left_inverse m f W N _ I H (sbasis j)) as (cs & -> & Wc & Dc); [apply sbasis_wfs; lia|]. cbn [bind].
      destruct (IH (S j) ltac:(lia)) as (inv & -> & Li & Vi). cbn [bind]. exists (cs_column cs :: inv).
      split; [reflexivity|]. cbn [length]. split; [lia|]. intros [|x] Lx; cbn [nth].
      + split; [assumption|]. intros i Lii. rewrite Dc by assumption. rewrite Nat.add_0_r.
        rewrite (sum_ext m _ (fun k => N i k * delta k j)).
        * apply sum_delta_r. lia.
        * intros k Lk. now rewrite den_sbasis, delta_sym.
      + destruct (Vi x ltac:(lia)) as [A1 A2]. split; [assumption|]. intros i Lii. rewrite A2 by assumption. f_equal. lia. }
  destruct (G m 0%nat eq_refl) as (inv & -> & Linv & Vinv). cbn [bind].
  destruct (transpose_spec m N inv 0 (repeat [] m)) as (rows & -> & Lr & Hr).
  - intros j Lj. change (@length (list (nat * Qc)) inv) with (@length svec inv) in Lj. rewrite Linv in Lj. now apply Vinv.
  - split; [apply repeat_length|]. intros i Li. split; [|intros; lia].
    replace (nth i (repeat [] m) []) with (@nil (nat * Qc)) by (symmetry; apply nth_repeat). exact Logic.I.
  - change (@length (list (nat * Qc)) inv) with (@length svec inv) in Hr. rewrite Linv in Hr.
    exists rows. split; [reflexivity|]. split; [assumption|exact Hr].
Qed.
Lemma bir_remove_spec m rows N rm : bir_rep m rows N -> sorted_rows m rm ->
  exists rows', bir_remove rows rm = Ok rows' /\ bir_rep (m - length rm) rows' (submat m rm N).
Proof.
  intros [L H] S. unfold bir_remove. eexists. split; [reflexivity|].
  assert (Lk := kept_length m rm S). split.
  - rewrite map_length, remove_indices_length by now rewrite L. now rewrite L.
  - intros i Li. rewrite (nth_indep _ [] (sremove [] rm)) by (rewrite map_length, remove_indices_length by (now rewrite L); lia).
    rewrite (map_nth (fun row => sremove row rm)).
    rewrite nth_remove_indices by (rewrite L; lia). rewrite L. rewrite <- Lk in *.
    assert (Hk : In (nth i (kept m rm) 0%nat) (kept m rm)) by now apply nth_In.
    apply kept_In in Hk. destruct Hk as [Hk _]. destruct (H _ Hk) as [W D]. split.
    + apply wfs_sremove; [apply S|assumption].
    + intros j Lj. rewrite (den_sremove m); try assumption; [|apply S|intros x v Hx; now apply (wfs_In_lt m (nth (nth i (kept m rm) 0%nat) rows []) x v)].
      unfold submat. rewrite D; [reflexivity|].
      assert (Hk' : In (nth j (kept m rm) 0%nat) (kept m rm)) by now apply nth_In. now apply kept_In in Hk'.
Qed.

Definition BIR_laws : BILaws BIR.
Proof.
  refine (mk_laws BIR bir_rep (fun _ => True) (fun m => (1 <= m)%nat) (fun _ => True)
    _ _ _ _ _ _ _ _ _ _ _ _ _).
  - intros m b N N' E [L H]. split; [assumption|]. intros i Li. destruct (H i Li) as [W D]. split; [assumption|].
    intros j Lj. rewrite D by assumption. now apply E.
  - intros m b [= <-]. split; [now rewrite map_length, seq_length|]. intros i Li.
    rewrite (nth_indep _ [] (sbasis 0)) by now rewrite map_length, seq_length. rewrite map_nth, seq_nth by assumption.
    split; [now apply sbasis_wfs|]. intros j Lj. apply den_sbasis.
  - intros m _. eexists. reflexivity.
  - intros m cols b N L F I E. cbn in E. destruct m as [|m].
    + exfalso. destruct cols; [|discriminate]. cbn in E. discriminate.
    + destruct (bir_invert_spec (S m) cols N ltac:(lia) L F I) as (r & E' & R). rewrite E in E'. now injection E' as <-.
  - intros m cols N M L F I. destruct (bir_invert_spec m cols N M L F I) as (r & E' & R). now exists r.
  - intros m b N a R Wa. cbn. now apply bir_left_spec.
  - intros m b N a c p b' w R Wa E Lp Np Ec. cbn in *.
    destruct (bir_left_spec m b N a R Wa) as (c' & E' & Wc & _). rewrite E in E'. injection E' as <-.
    destruct (bir_change_spec m b N p c R Wc Lp Np) as (r & E' & R'). rewrite E' in Ec. injection Ec as <- <-. now split.
  - intros m b N a c p _ R Wa E Lp Np. cbn in *.
    destruct (bir_left_spec m b N a R Wa) as (c' & E' & Wc & _). rewrite E in E'. injection E' as <-.
    destruct (bir_change_spec m b N p c R Wc Lp Np) as (r & E' & R'). eauto.
  - intros m b N E. discriminate E.
  - intros m b N r R Wr Ne. cbn. now apply bir_right_spec.
  - intros m b N i a R Wa Li. cbn. rewrite (bir_elem_spec m b N) by assumption. eexists. split; [reflexivity|].
    cbn zeta. destruct (qzero _) eqn:Z; qb; [assumption|reflexivity].
  - intros m b N i [L H] Li. cbn. rewrite (index_Ok b i []) by lia. eexists. split; [reflexivity|]. now apply H.
  - intros remove m b N B rm E R S _. injection E as <-. now apply bir_remove_spec.
Defined.
