(** * Sparse matrices are the matrices they stand for *)
From Verif Require Import InitP KeptP StandardP StandardQ.
From Verif Require Export Matrix.

Lemma nth_repeat_nil {A} i n : nth i (repeat (@nil A) n) [] = [].
Proof. revert n. induction i; intros [|n]; cbn; auto. Qed.
Lemma transpose_ok data minor : (forall i, (i < length data)%nat -> wfs minor (nth i data [])) ->
  exists a, mx_transpose data minor = Ok a /\ mwf a /\ mx_major a = minor /\ mx_minor a = length data /\
    forall i j, mval a j i = den (nth i data []) j.
Proof.
  intros W. destruct (transpose_spec minor (fun j i => den (nth i data []) j) data 0 (repeat [] minor)) as (rows & E & L & H).
  - intros l Ll. split; [now apply W|]. reflexivity.
  - split; [now rewrite repeat_length|]. intros i Li. rewrite nth_repeat_nil. split; [exact I|]. intros l Ll. lia.
  - unfold mx_transpose. rewrite E. cbn [bind]. eexists. split; [reflexivity|]. cbn [mx_major mx_minor mx_data].
    rewrite Nat.add_0_l in H. split; [split; [assumption|]; intros i Li; apply H, Li|].
    split; [reflexivity|]. split; [reflexivity|]. intros i j. unfold mval. cbn [mx_data].
    destruct (Nat.lt_ge_cases j minor) as [Lj|Lj].
    + destruct (H j Lj) as [Wj Vj]. destruct (Nat.lt_ge_cases i (length data)) as [Li|Li]; [now apply Vj|].
      rewrite (den_above 0 (length data)) by assumption. now rewrite (nth_overflow data) by assumption.
    + rewrite nth_overflow by lia. cbn [den]. destruct (Nat.lt_ge_cases i (length data)) as [Li|Li].
      * symmetry. exact (den_above 0 minor _ _ (W i Li) Lj).
      * now rewrite (nth_overflow data) by assumption.
Qed.
Lemma transpose_panics_on_wide data minor j i v : (i < length data)%nat -> In (j, v) (nth i data []) -> (minor <= j)%nat ->
  mx_transpose data minor = Panic.
Proof.
  intros Li Hin Lj. unfold mx_transpose. enough (H : transpose_from 0 data (repeat [] minor) = Panic) by now rewrite H.
  assert (P1 : forall col c rows, length rows = minor -> In (j, v) col -> push_column c col rows = Panic).
  { induction col as [|[i' v'] col IH]; intros c rows Lr Hc; [destruct Hc|]. cbn [push_column].
    destruct (index rows i') eqn:E; cbn [bind]; try reflexivity.
    - destruct Hc as [Hc|Hc]; [|apply IH; [now rewrite upd_length|assumption]].
      injection Hc as -> ->. unfold index in E. rewrite (proj2 (nth_error_None rows j)) in E by lia. discriminate.
    - unfold index in E. destruct (nth_error rows i'); discriminate. }
  assert (P2 : forall col c rows rows', length rows = minor -> push_column c col rows = Ok rows' -> length rows' = minor).
  { induction col as [|[i' v'] col IH]; intros c rows rows' Lr E; cbn [push_column] in E; [now inversion E; subst|].
    destruct (index rows i'); cbn [bind] in E; try discriminate. apply IH in E; [assumption|]. now rewrite upd_length. }
  assert (P3 : forall col c rows, push_column c col rows <> Fuel).
  { induction col as [|[i' v'] col IH]; intros c rows E; cbn [push_column] in E; [discriminate|].
    unfold index in E. destruct (nth_error rows i'); cbn [ofopt bind] in E; try discriminate. exact (IH _ _ E). }
  assert (G : forall data i k rows, (i < length data)%nat -> In (j, v) (nth i data []) -> length rows = minor -> transpose_from k data rows = Panic).
  { clear data i Li Hin. induction data as [|c data IH]; intros i k rows Li Hin Lr; [cbn in Li; lia|]. cbn [transpose_from].
    destruct i as [|i]; cbn [nth] in Hin; [now rewrite P1|].
    destruct (push_column k c rows) eqn:E; cbn [bind]; [|reflexivity|now apply P3 in E].
    apply (IH i); [cbn [length] in Li; lia|assumption|]. now apply P2 in E. }
  apply (G data i); [assumption|assumption|apply repeat_length].
Qed.
Lemma concat_ok a b : mwf a -> mwf b -> mx_minor a = mx_minor b ->
  mwf (mx_concat a b) /\ mx_major (mx_concat a b) = (mx_major a + mx_major b)%nat /\ mx_minor (mx_concat a b) = mx_minor a /\
  forall i j, mval (mx_concat a b) i j = if Nat.ltb i (mx_major a) then mval a i j else mval b (i - mx_major a)%nat j.
Proof.
  intros [LA WA] [LB WB] E. unfold mwf, mval, mx_concat. cbn [mx_data mx_major mx_minor]. split; [|split; [reflexivity|split; [reflexivity|]]].
  - split; [rewrite app_length; lia|]. intros i Li. destruct (Nat.lt_ge_cases i (mx_major a)).
    + rewrite app_nth1 by lia. auto.
    + rewrite app_nth2 by lia. rewrite LA, E. apply WB. lia.
  - intros i j. destruct (Nat.ltb_spec i (mx_major a)); [rewrite app_nth1 by lia|rewrite app_nth2 by lia; rewrite LA]; reflexivity.
Qed.
Lemma remove_major_ok a rm : mwf a -> sorted_rows (mx_major a) rm ->
  exists b, mx_remove_major a rm = Ok b /\ mwf b /\ mx_major b = (mx_major a - length rm)%nat /\ mx_minor b = mx_minor a /\
    forall i j, (i < mx_major b)%nat -> mval b i j = mval a (nth i (kept (mx_major a) rm) 0%nat) j.
Proof.
  intros [L W] SR. assert (LE := sorted_rows_length _ _ SR). assert (LK := kept_length _ _ SR). unfold mx_remove_major.
  destruct (Nat.ltb_spec (mx_major a) (length rm)); [lia|]. eexists. split; [reflexivity|]. unfold mwf, mval. cbn [mx_data mx_major mx_minor].
  assert (R : forall i, (i < mx_major a - length rm)%nat -> nth i (remove_indices (mx_data a) rm) [] = nth (nth i (kept (mx_major a) rm) 0%nat) (mx_data a) []).
  { intros i Li. rewrite <- L. apply nth_remove_indices. rewrite L. lia. }
  split; [|split; [reflexivity|split; [reflexivity|]]].
  - split; [rewrite remove_indices_length; rewrite L; auto|]. intros i Li. rewrite R by assumption. apply W.
    apply (kept_In (mx_major a) rm). apply nth_In. lia.
  - intros i j Li. now rewrite R.
Qed.
Lemma minor_loop rm : forall k data s, (s + k <= length data)%nat ->
  exists data', foldM (fun data j => let* c := index data j in Ok (upd data j (sremove c rm))) (seq s k) data = Ok data' /\
    length data' = length data /\ forall i, nth i data' [] = if Nat.leb s i && Nat.ltb i (s + k) then sremove (nth i data []) rm else nth i data [].
Proof.
  induction k as [|k IH]; intros data s L; cbn [seq foldM].
  - exists data. split; [reflexivity|]. split; [reflexivity|]. intros i. destruct (Nat.leb_spec s i), (Nat.ltb_spec i (s + 0)); cbn [andb]; try reflexivity; lia.
  - unfold index. rewrite (nth_error_nth' data []) by lia. cbn [ofopt bind].
    destruct (IH (upd data s (sremove (nth s data []) rm)) (S s)) as (d' & E & L' & H); [rewrite upd_length; lia|].
    exists d'. split; [exact E|]. split; [rewrite L', upd_length; reflexivity|]. intros i. rewrite H, upd_nth by lia.
    destruct (Nat.eqb_spec i s) as [->|N].
    + destruct (Nat.leb_spec (S s) s); [lia|]. cbn [andb]. destruct (Nat.leb_spec s s), (Nat.ltb_spec s (s + S k)); try lia. reflexivity.
    + destruct (Nat.leb_spec (S s) i), (Nat.leb_spec s i), (Nat.ltb_spec i (S s + k)), (Nat.ltb_spec i (s + S k)); cbn [andb]; try lia; reflexivity.
Qed.
Lemma remove_minor_ok a rm : mwf a -> sorted_rows (mx_minor a) rm ->
  exists b, mx_remove_minor a rm = Ok b /\ mwf b /\ mx_major b = mx_major a /\ mx_minor b = (mx_minor a - length rm)%nat /\
    forall i j, (j < mx_minor b)%nat -> mval b i j = mval a i (nth j (kept (mx_minor a) rm) 0%nat).
Proof.
  intros [L W] SR. assert (LE := sorted_rows_length _ _ SR). assert (LK := kept_length _ _ SR). unfold mx_remove_minor.
  destruct (minor_loop rm (mx_major a) (mx_data a) 0) as (d' & E & L' & H); [lia|]. rewrite E. cbn [bind].
  destruct (Nat.ltb_spec (mx_minor a) (length rm)); [lia|]. eexists. split; [reflexivity|]. unfold mwf, mval. cbn [mx_data mx_major mx_minor].
  assert (R : forall i, nth i d' [] = sremove (nth i (mx_data a) []) rm).
  { intros i. rewrite H. destruct (Nat.ltb_spec i (0 + mx_major a)); cbn [Nat.leb andb]; [reflexivity|]. now rewrite nth_overflow by lia. }
  assert (WI : forall i, wfs (mx_minor a) (nth i (mx_data a) [])).
  { intros i. destruct (Nat.lt_ge_cases i (mx_major a)); [auto|]. rewrite nth_overflow by lia. exact I. }
  split; [|split; [reflexivity|split; [reflexivity|]]].
  - split; [lia|]. intros i Li. rewrite R, <- LK. apply wfs_sremove; [apply SR|apply WI].
  - intros i j Lj. rewrite R. apply den_sremove; [apply SR| |lia]. intros x y Hxy. exact (wfs_In_lt _ _ _ _ (WI i) Hxy).
Qed.
Lemma set_ok a i j v : mwf a -> (i < mx_major a)%nat -> (j < mx_minor a)%nat -> v <> 0 ->
  exists b, mx_set a i j v = Ok b /\ mwf b /\ mx_major b = mx_major a /\ mx_minor b = mx_minor a /\
    forall i' j', mval b i' j' = if Nat.eqb i' i && Nat.eqb j' j then v else mval a i' j'.
Proof.
  intros [L W] Li Lj Nv. unfold mx_set, index. rewrite (nth_error_nth' _ []) by lia. cbn [ofopt bind]. eexists. split; [reflexivity|].
  unfold mwf, mval. cbn [mx_data mx_major mx_minor]. destruct (sset_fwf 0 (mx_minor a) (nth i (mx_data a) []) j v) as [W' D']; [apply W, Li|lia|assumption|].
  split; [|split; [reflexivity|split; [reflexivity|]]].
  - split; [now rewrite upd_length|]. intros k Lk. rewrite upd_nth by lia. destruct (Nat.eqb k i); [exact W'|auto].
  - intros i' j'. rewrite upd_nth by lia. destruct (Nat.eqb_spec i' i) as [->|]; cbn [andb]; [apply D'|reflexivity].
Qed.
Lemma size_ok a : mwf a -> mx_size a = length (filter (fun '(i, j) => negb (qzero (mval a i j))) (list_prod (seq 0 (mx_major a)) (seq 0 (mx_minor a)))).
Proof.
  intros [L W]. unfold mx_size, mval. rewrite <- L. rewrite <- L in W. clear L. induction (mx_data a) as [|c data IH] using rev_ind; [reflexivity|].
  assert (W0 : forall i, (i < length data)%nat -> wfs (mx_minor a) (nth i data [])).
  { intros i Li. specialize (W i). rewrite app_length, app_nth1 in W by assumption. apply W. lia. }
  assert (WC : wfs (mx_minor a) c).
  { specialize (W (length data)). rewrite app_length, nth_middle in W. apply W. cbn [length]. lia. }
  rewrite map_app, list_sum_app, IH by assumption. rewrite app_length. cbn [length map list_sum fold_right]. rewrite Nat.add_1_r, seq_S.
  assert (LP : forall (a b c : list nat), list_prod (a ++ b) c = list_prod a c ++ list_prod b c).
  { clear. induction a as [|x a IH]; intros b c; [reflexivity|]. cbn [app list_prod]. now rewrite IH, app_assoc. }
  rewrite LP, filter_app, app_length. cbn [list_prod Nat.add]. rewrite app_nil_r. f_equal.
  - f_equal. apply filter_ext_in. intros [i j] H. apply in_prod_iff in H. destruct H as [H _]. apply in_seq in H. now rewrite app_nth1 by lia.
  - rewrite Nat.add_0_r. rewrite <- (map_length fst c). rewrite (filter_ext_in _ (fun '(i, j) => negb (qzero (den c j)))).
    2:{ intros [i j] H. apply in_map_iff in H. destruct H as (y & E & _). injection E as <- <-. now rewrite nth_middle. }
    enough (E : map fst c = filter (fun j => negb (qzero (den c j))) (seq 0 (mx_minor a))).
    { rewrite E. clear. induction (seq 0 (mx_minor a)) as [|j l IH]; [reflexivity|]. cbn [map filter]. destruct (negb (qzero (den c j))); cbn [length]; now rewrite IH. }
    assert (G : forall n lo c, fwf lo (lo + n) c -> map fst c = filter (fun j => negb (qzero (den c j))) (seq lo n)).
    { clear. induction n as [|n IH]; intros lo c H; cbn [seq filter].
      - destruct c as [|[i v] c]; [reflexivity|]. destruct H as (H & _). lia.
      - destruct c as [|[i v] c].
        + cbn [den map]. replace (qzero 0) with true by reflexivity. cbn [negb]. exact (IH (S lo) [] I).
        + destruct H as (H1 & H2 & H3). destruct (Nat.eq_dec i lo) as [->|N].
          * cbn [den map fst]. rewrite Nat.eqb_refl. rewrite (den_below (S lo) (lo + S n) c lo) by (try assumption; lia).
            replace (v + 0) with v by ring. destruct (qzero v) eqn:Z; qb; [contradiction|]. cbn [negb]. f_equal.
            rewrite (IH (S lo) c) by now replace (S lo + n)%nat with (lo + S n)%nat by lia.
            apply filter_ext_in. intros j Hj. apply in_seq in Hj. destruct (Nat.eqb_spec j lo); [lia|]. now replace (0 + den c j) with (den c j) by ring.
          * rewrite (den_below (S lo) (lo + S n) ((i, v) :: c) lo); [|split; [lia|split; assumption]|lia].
            replace (qzero 0) with true by reflexivity. cbn [negb]. apply IH. replace (S lo + n)%nat with (lo + S n)%nat by lia. split; [lia|split; assumption]. }
    apply G. exact WC.
Qed.
Lemma identity_ok n : mwf (mx_identity n) /\ mx_major (mx_identity n) = n /\ mx_minor (mx_identity n) = n /\
  forall i j, (i < n)%nat -> mval (mx_identity n) i j = delta i j.
Proof.
  unfold mwf, mval, mx_identity. cbn [mx_data mx_major mx_minor].
  assert (R : forall i, (i < n)%nat -> nth i (map sbasis (seq 0 n)) [] = sbasis i).
  { intros i Li. rewrite (nth_indep _ [] (sbasis 0)) by (now rewrite map_length, seq_length). rewrite map_nth. now rewrite seq_nth. }
  split; [|split; [reflexivity|split; [reflexivity|]]].
  - split; [now rewrite map_length, seq_length|]. intros i Li. rewrite R by assumption. now apply sbasis_wfs.
  - intros i j Li. rewrite R by assumption. apply den_sbasis.
Qed.
Lemma dense_nth rows i : nth i (map sfrom rows) [] = sfrom (nth i rows []).
Proof. change [] with (sfrom []) at 1. apply map_nth. Qed.
Lemma dense_wf rows n : (forall r, In r rows -> length r = n) -> forall i, (i < length rows)%nat -> wfs n (sfrom (nth i rows [])).
Proof. intros H i Li. rewrite <- (H (nth i rows [])) by now apply nth_In. apply sfrom_spec. Qed.
Lemma rows_dense_ok rows n : (forall r, In r rows -> length r = n) ->
  mwf (mx_rows_dense rows n) /\ mx_major (mx_rows_dense rows n) = length rows /\ mx_minor (mx_rows_dense rows n) = n /\
  forall i j, mval (mx_rows_dense rows n) i j = nthq (nth i rows []) j.
Proof.
  intros H. unfold mwf, mval, mx_rows_dense. cbn [mx_data mx_major mx_minor]. split; [|split; [reflexivity|split; [reflexivity|]]].
  - split; [now rewrite map_length|]. intros i Li. rewrite dense_nth. now apply dense_wf.
  - intros i j. rewrite dense_nth. apply sfrom_spec.
Qed.
Lemma columns_dense_ok rows n : (forall r, In r rows -> length r = n) ->
  exists a, mx_columns_dense rows n = Ok a /\ mwf a /\ mx_major a = n /\ mx_minor a = length rows /\
    forall i j, mval a j i = nthq (nth i rows []) j.
Proof.
  intros H. destruct (transpose_ok (map sfrom rows) n) as (a & E & W & M1 & M2 & V).
  - rewrite map_length. intros i Li. rewrite dense_nth. now apply dense_wf.
  - unfold mx_transpose in E. unfold mx_columns_dense. rewrite map_length in E, M2. exists a. split; [exact E|]. split; [exact W|]. split; [exact M1|]. split; [exact M2|].
    intros i j. rewrite V, dense_nth. apply sfrom_spec.
Qed.
Lemma signs_ok rows a : mwf a -> mwf (mx_change_row_signs rows a) /\ mx_major (mx_change_row_signs rows a) = mx_major a /\
  mx_minor (mx_change_row_signs rows a) = mx_minor a /\
  forall j i, mval (mx_change_row_signs rows a) j i = if memb i rows then - mval a j i else mval a j i.
Proof.
  intros [L W]. unfold mwf, mval, mx_change_row_signs, change_row_signs. cbn [mx_data mx_major mx_minor].
  set (f := map (fun '(i, v) => (i, if memb i rows then v * - (1) else v))).
  assert (R : forall j, nth j (map f (mx_data a)) [] = f (nth j (mx_data a) [])) by (intros j; exact (map_nth f (mx_data a) [] j)).
  split; [|split; [reflexivity|split; [reflexivity|]]].
  - split; [now rewrite map_length|]. intros j Lj. rewrite R. apply fwf_sign. now apply W.
  - intros j i. rewrite R. apply den_sign.
Qed.
