(** * With assertions: the factorized and the explicit inverse *)
From Verif Require Export DebugWhole DebugLuF DebugLuC.

Definition LU_dlaws : DLaws LU_laws LU_debug.
Proof.
  refine (mk_dlaws LU LU_laws LU_debug (fun m => (2 <= m)%nat) (fun m => (2 <= m)%nat) _ _ _ _ _ _ _ _ _ _ _ _).
  - intros m H. lia.
  - intros m H. cbn. lia.
  - intros m b N [W _]. now apply w_m.
  - reflexivity.
  - intros m N cols M L F I. now apply (lu_invert_same m N).
  - intros m b N a M [W _] Wa. now apply (lu_left_same m).
  - intros m b N r M [W _] Wr Ne. now apply (lu_right_same m).
  - intros m b N i a M [W _] Wa Li. now apply (lu_elem_same m).
  - intros m b N i M [W _] Li. now apply (lu_row_same m).
  - intros m b N a c p M (W & B & I & H) Wa E Lp Np. now apply (lu_change_same m b B a).
  - intros m b N _ _ M. exact M.
  - exact I.
Defined.

(** ** The explicit inverse *)
Lemma bir_identity_same m : (1 <= m)%nat -> bir_identity_d m = bi_identity BIR m.
Proof.
  intros M. unfold bir_identity_d. cbn [bi_identity BIR].
  assert (G : forall l, (forall i, In i l -> (i < m)%nat) ->
    mapM (fun i => let* _ := assert (Nat.ltb i m) in sparse_new (sbasis i) m) l = Ok (map sbasis l)).
  { induction l as [|i l IH]; intros H; [reflexivity|]. cbn [mapM map].
    assert (Li : (i < m)%nat) by (apply H; now left).
    rewrite asserted by now apply Nat.ltb_lt. rewrite sparse_new_ok by (try lia; now apply sbasis_wfs). cbn [bind].
    rewrite IH by (intros j Hj; apply H; now right). reflexivity. }
  apply G. intros i Hi. apply in_seq in Hi. lia.
Qed.

Lemma bir_elem_same m rows N i a : bir_rep m rows N -> (i < m)%nat -> bir_elem_d rows i a = bir_elem rows i a.
Proof. intros [L _] Li. unfold bir_elem_d. apply asserted. apply Nat.ltb_lt. lia. Qed.

Lemma bir_left_same m rows N a : (1 <= m)%nat -> bir_rep m rows N -> wfs m a -> bir_left_d rows a = bir_left rows a.
Proof.
  intros M R Wa. destruct (bir_left_spec m rows N a R Wa) as (c & E & Wc & _). rewrite E.
  unfold bir_left_d. unfold bir_left in E.
  assert (Em : forall l acc, (forall i, In i l -> (i < m)%nat) ->
    foldM (fun acc i => let* e := bir_elem_d rows i a in
                      Ok (match e with Some v => acc ++ [(i, v)] | None => acc end)) l acc =
    foldM (fun acc i => let* e := bir_elem rows i a in
                      Ok (match e with Some v => acc ++ [(i, v)] | None => acc end)) l acc).
  { induction l as [|i l IH]; intros acc H; [reflexivity|]. cbn [foldM].
    rewrite (bir_elem_same m rows N) by (try assumption; apply H; now left).
    destruct (bir_elem rows i a) as [e| |]; cbn [bind]; try reflexivity. apply IH. intros j Hj. apply H. now right. }
  rewrite Em by (intros i Hi; apply in_seq in Hi; rewrite (proj1 R) in Hi; lia).
  rewrite E. cbn [bind]. rewrite (proj1 R). apply sparse_new_ok; [lia|assumption].
Qed.

Lemma bir_right_same m rows N r : (1 <= m)%nat -> bir_rep m rows N -> wfs m r -> bir_right_d rows r = bir_right rows r.
Proof.
  intros M R W. destruct r as [|[i f] r]; [reflexivity|]. destruct W as (W1 & W2 & W3). cbn [bir_right bir_right_d].
  rewrite (index_Ok rows i []) by (destruct R; lia). cbn [bind].
  destruct (proj2 R i ltac:(lia)) as [Wr _]. rewrite (proj1 R). rewrite sparse_new_ok; [reflexivity|lia|].
  now apply fwf_map; [intros; now apply Qc_mul_neq0|].
Qed.

Lemma bir_change_same m rows N p c : bir_rep m rows N -> wfs m c -> (p < m)%nat -> den c p <> 0 ->
  bir_change_d rows p c = bir_change rows p c.
Proof.
  intros [L H] Wc Lp Np. unfold bir_change_d, bir_change, bir_normalize_d, bir_normalize.
  rewrite asserted by (apply Nat.ltb_lt; lia). rewrite asserted by (apply Nat.ltb_lt; lia).
  rewrite (sget_nonzero m) by assumption. cbn [ofopt bind].
  rewrite (index_Ok rows p []) by lia. cbn [bind]. rewrite asserted by (apply negb_true_iff; unfold qzero; apply qeqb_false; assumption).
  cbn [bind]. rewrite asserted; [reflexivity|]. apply Nat.ltb_lt. rewrite upd_length. lia.
Qed.

Lemma bir_invert_same m N cols : (2 <= m)%nat -> length cols = m -> Forall (wfs m) cols ->
  is_inverse m N (cols_mat cols) -> bir_invert_d cols = bir_invert cols.
Proof.
  intros M L F I. destruct (bir_invert_spec m cols N ltac:(lia) L F I) as (rows & E & R & H). rewrite E.
  revert E. unfold bir_invert, bir_invert_d. rewrite L. rewrite (lu_invert_same m N) by assumption.
  destruct (lu_invert_spec m N cols ltac:(lia) L F I) as (f & -> & W & Hf). cbn [bind].
  assert (Em : forall l, (forall j, In j l -> (j < m)%nat) ->
    mapM (fun j => let* c := lu_left_d f (sbasis j) in Ok (cs_column c)) l =
    mapM (fun j => let* c := lu_left f (sbasis j) in Ok (cs_column c)) l).
  { induction l as [|j l IH]; intros Hj; [reflexivity|]. cbn [mapM].
    rewrite (lu_left_same m) by (try assumption; apply sbasis_wfs; apply Hj; now left).
    rewrite IH by (intros; apply Hj; now right). reflexivity. }
  rewrite Em by (intros j Hj; apply in_seq in Hj; lia).
  destruct (mapM _ (seq 0 m)) as [inv| |]; cbn [bind]; try discriminate.
  intros E. rewrite E. cbn [bind].
  assert (Wr : Forall (wfs m) rows).
  { apply Forall_forall. intros x Hx. destruct (In_nth _ _ [] Hx) as (i & Li & <-). apply H. lia. }
  clear - Wr M. induction Wr as [|x l Wx Wl IH]; [reflexivity|]. cbn [mapM].
  rewrite sparse_new_ok by (try lia; assumption). cbn [bind]. now rewrite IH.
Qed.

Lemma bir_remove_same m rows N rm : bir_rep m rows N -> sorted_rows m rm -> increasing_from 0 rm -> (length rm < m)%nat ->
  bir_remove_d rows rm = bir_remove rows rm.
Proof.
  intros [L H] S Inc Lt. unfold bir_remove_d, bir_remove. rewrite L. rewrite asserted by now apply Nat.ltb_lt.
  assert (Em : forall l, mapM (fun row => sparse_remove m row rm) l = Ok (map (fun row => sremove row rm) l)).
  { induction l as [|x l IH]; [reflexivity|]. cbn [mapM map].
    unfold sparse_remove at 1. rewrite !asserted.
    - cbn [bind]. now rewrite IH.
    - now apply Nat.ltb_lt.
    - apply below_In. apply S.
    - apply Nat.eqb_eq. apply set_size_NoDup. apply (proj1 S).
    - apply (increasing_sorted _ _ Inc). }
  rewrite Em. cbn [bind]. rewrite asserted; [reflexivity|].
  apply Nat.eqb_eq. rewrite map_length, remove_indices_length by now rewrite L. now rewrite L.
Qed.

Definition BIR_dlaws : DLaws BIR_laws BIR_debug.
Proof.
  refine (mk_dlaws BIR BIR_laws BIR_debug (fun m => (1 <= m)%nat) (fun m => (2 <= m)%nat) _ _ _ _ _ _ _ _ _ _ _ _).
  - intros m H. lia.
  - intros m H. cbn. lia.
  - intros m b N [L _]. exact L.
  - intros m M. now apply bir_identity_same.
  - intros m N cols M L F I. now apply (bir_invert_same m N).
  - intros m b N a M R Wa. now apply (bir_left_same m b N).
  - intros m b N r M R Wr Ne. now apply (bir_right_same m b N).
  - intros m b N i a M R Wa Li. now apply (bir_elem_same m b N).
  - reflexivity.
  - intros m b N a c p M R Wa E Lp Np. destruct (bir_left_spec m b N a R Wa) as (c' & E' & Wc & _).
    cbn [bi_left BIR] in E. rewrite E' in E. injection E as ->. now apply (bir_change_same m b N).
  - intros m b N C. discriminate.
  - cbn. intros m b N rm R S Inc Lt. now apply (bir_remove_same m b N).
Defined.
