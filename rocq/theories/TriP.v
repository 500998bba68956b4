(** * Triangular systems of the LU decomposition *)
From Verif Require Export PermP Lu.

(** ** Changing one value *)
Lemma insert_or_shift_spec lo m l i c : fwf lo m l -> (lo <= i < m)%nat -> c <> 0 ->
  fwf lo m (insert_or_shift l i c) /\
  forall k, den (insert_or_shift l i c) k = den l k - (if Nat.eqb k i then c else 0).
Proof.
  intros W Li Nc. destruct (fwf_split i m l lo W ltac:(lia)) as (P & R & -> & HP & HR).
  unfold insert_or_shift. rewrite (bsearch_app P _ HP).
  destruct (fwf_head i m R HR) as [(v & C & -> & Nv & _ & HC)|HC].
  - rewrite bsearch_present, Nat.add_0_r. rewrite nth_app_mid by reflexivity. cbn [snd].
    destruct (qzero (v - c)) eqn:Z; qb.
    + rewrite remove_at_app by reflexivity. split.
      * apply (fwf_app lo i m); [assumption| |lia|lia]. apply fwf_weaken with (S i); [lia|assumption].
      * intros k. rewrite !den_app. cbn [den]. destruct (Nat.eqb k i); [|ring].
        replace v with c; [ring|]. qlra.
    + rewrite upd_app by reflexivity. split.
      * apply (fwf_app lo i m); [assumption| |lia|lia]. cbn [fwf]. repeat split; try assumption; lia.
      * intros k. rewrite !den_app. cbn [den]. destruct (Nat.eqb k i); ring.
  - rewrite (bsearch_absent _ HC), Nat.add_0_r. rewrite insert_at_app by reflexivity. split.
    + apply (fwf_app lo i m); [assumption| |lia|lia]. cbn [fwf]. repeat split; try assumption; try lia.
      intros E. apply Nc. qlra.
    + intros k. rewrite !den_app. cbn [den]. destruct (Nat.eqb k i); ring.
Qed.
Lemma fold_shift lo m c : forall col rhs, c <> 0 -> fwf lo m col -> fwf lo m rhs ->
  let r := fold_left (fun rhs '(i, x) => insert_or_shift rhs i (c * x)) col rhs in
  fwf lo m r /\ forall k, den r k = den rhs k - c * den col k.
Proof.
  intros col rhs Nc. revert rhs.
  assert (G : forall lo', (lo <= lo')%nat -> forall rhs, fwf lo' m col -> fwf lo m rhs ->
    let r := fold_left (fun rhs '(i, x) => insert_or_shift rhs i (c * x)) col rhs in
    fwf lo m r /\ forall k, den r k = den rhs k - c * den col k).
  { induction col as [|[i x] col IH]; intros lo' L rhs Hc Hr; cbn [fold_left].
    - split; [assumption|]. intros k. cbn [den]. ring.
    - destruct Hc as (H1 & H2 & H3).
      destruct (insert_or_shift_spec lo m rhs i (c * x) Hr ltac:(lia)) as [W D]; [now apply Qc_mul_neq0|].
      destruct (IH (S i) ltac:(lia) (insert_or_shift rhs i (c * x)) H3 W) as [W' D'].
      split; [exact W'|]. intros k. rewrite D', D. cbn [den]. destruct (Nat.eqb k i); ring. }
  intros rhs Hc Hr. now apply (G lo).
Qed.
Lemma range_shift lo m c (R : nat -> Qc) (step : svec -> nat -> res svec) : c <> 0 -> forall n a rhs,
  (forall j rhs, (a <= j < a + n)%nat ->
     step rhs j = Ok (if qzero (R j) then rhs else insert_or_shift rhs j (c * R j))) ->
  (lo <= a)%nat -> (a + n <= m)%nat -> fwf lo m rhs ->
  exists r, foldM step (seq a n) rhs = Ok r /\ fwf lo m r /\
    forall k, den r k = den rhs k - (if Nat.leb a k && Nat.ltb k (a + n) then c * R k else 0).
Proof.
  intros Nc. induction n as [|n IH]; intros a rhs Hs La Lm W; cbn [seq foldM].
  - exists rhs. split; [reflexivity|]. split; [assumption|]. intros k.
    destruct (Nat.leb_spec a k); destruct (Nat.ltb_spec k (a + 0)); cbn [andb]; try lia; ring.
  - rewrite Hs by lia. cbn [bind].
    set (rhs1 := if qzero (R a) then rhs else insert_or_shift rhs a (c * R a)).
    assert (H1 : fwf lo m rhs1 /\ forall k, den rhs1 k = den rhs k - (if Nat.eqb k a then c * R a else 0)).
    { unfold rhs1. destruct (qzero (R a)) eqn:Z; qb.
      - split; [assumption|]. intros k. rewrite Z. destruct (Nat.eqb k a); ring.
      - apply insert_or_shift_spec; [assumption|lia|now apply Qc_mul_neq0]. }
    destruct H1 as [W1 D1]. destruct (IH (S a) rhs1) as (r & E & W' & D'); try assumption; try lia.
    { intros j rhs' Hj. apply Hs. lia. }
    exists r. split; [assumption|]. split; [assumption|]. intros k. rewrite D', D1.
    destruct (Nat.eqb_spec k a) as [->|N].
    + rewrite (proj2 (Nat.leb_gt (S a) a)) by lia. rewrite (proj2 (Nat.leb_le a a)) by lia.
      rewrite (proj2 (Nat.ltb_lt a (a + S n))) by lia. cbn [andb]. ring.
    + replace (Nat.leb a k) with (Nat.leb (S a) k)
        by (destruct (Nat.leb_spec (S a) k), (Nat.leb_spec a k); lia || reflexivity).
      replace (a + S n)%nat with (S a + n)%nat by lia. ring.
Qed.
Lemma pop_last_spec lo m l : fwf lo m l ->
  match pop_last l with
  | None => l = []
  | Some (i, v, t) => l = t ++ [(i, v)] /\ fwf lo i t /\ (lo <= i < m)%nat /\ v <> 0
  end.
Proof.
  intros W. unfold pop_last. destruct (rev l) as [|[i v] rl] eqn:E.
  - rewrite <- (rev_involutive l), E. reflexivity.
  - assert (El : l = rev rl ++ [(i, v)]) by (rewrite <- (rev_involutive l), E; reflexivity).
    split; [assumption|]. rewrite El in W. clear - W. revert lo W.
    induction (rev rl) as [|[j w] t IH]; intros lo W.
    + cbn in W. cbn. intuition lia.
    + destruct W as (H1 & H2 & H3). destruct (IH _ H3) as (A & B & C). cbn. repeat split; try assumption; lia.
Qed.
Lemma collect_spec m l : NoDup (map fst l) -> (forall i v, In (i, v) l -> (i < m)%nat /\ v <> 0) ->
  wfs m (collect l) /\ forall i, den (collect l) i = den l i.
Proof.
  unfold collect, wfs.
  assert (G : forall l acc, fwf 0 m acc -> NoDup (map fst l) ->
     (forall i v, In (i, v) l -> (i < m)%nat /\ v <> 0) -> (forall i, In i (map fst l) -> den acc i = 0) ->
     let r := fold_left (fun acc '(i, v) => sset acc i v) l acc in
     fwf 0 m r /\ forall i, den r i = den acc i + den l i).
  { clear l. induction l as [|[i v] l IH]; intros acc Ha ND Hl Z; cbn [fold_left].
    - split; [assumption|]. intros i. cbn [den]. ring.
    - cbn [map fst] in ND. inversion ND as [|? ? Nin ND']; subst.
      destruct (Hl i v (or_introl eq_refl)) as [Li Nv].
      destruct (sset_fwf 0 m acc i v Ha ltac:(lia) Nv) as [W D].
      destruct (IH (sset acc i v)) as [W' D']; try assumption.
      { intros; apply Hl; now right. }
      { intros j Hj. rewrite D. destruct (Nat.eqb_spec j i) as [->|]; [contradiction|]. apply Z. now right. }
      split; [assumption|]. intros k. rewrite D', D. cbn [den].
      destruct (Nat.eqb_spec k i) as [->|]; [|ring]. rewrite (Z i) by now left. ring. }
  intros ND Hl. destruct (G l [] I ND Hl) as [W D]; [reflexivity|]. split; [exact W|].
  intros i. rewrite D. cbn [den]. ring.
Qed.
Lemma collect_sorted m l : wfs m l -> collect l = l.
Proof.
  intros W. destruct (collect_spec m l) as [W' D].
  - now apply (fwf_NoDup 0 m).
  - intros i v H. destruct (den_In 0 m l i v W H) as (_ & A & B). split; [lia|assumption].
  - apply (wfs_ext m); try assumption. intros i _. apply D.
Qed.

(** ** The matrices stored in a decomposition *)
Definition Lmat (l : lu) : mat := fun i j => delta i j + den (nth j (l_low l) []) i.
Definition Umat (l : lu) : mat := fun i j =>
  delta i j * nthq (l_diag l) i + match j with 0%nat => 0 | S k => den (nth k (l_up l) []) i end.

Record lu_wf (m : nat) (l : lu) : Prop := mk_lu_wf {
  w_pos : (0 < m)%nat;
  w_rp : is_full m (l_rp l);
  w_cp : is_full m (l_cp l);
  w_llow : length (l_low l) = (m - 1)%nat;
  w_low : forall j, (j < m - 1)%nat -> fwf (S j) m (nth j (l_low l) []);
  w_lup : length (l_up l) = (m - 1)%nat;
  w_up : forall j, (j < m - 1)%nat -> fwf 0 (S j) (nth j (l_up l) []);
  w_ldiag : length (l_diag l) = m;
  w_diag : forall i, (i < m)%nat -> nthq (l_diag l) i <> 0;
  w_upd : forall e t, In (e, t) (l_upd l) -> (t < m)%nat /\ e_pivot e = t /\ fwf (S t) m (e_values e)
}.
Lemma w_m m l : lu_wf m l -> lu_m l = m.
Proof. intros W. unfold lu_m. apply (w_rp _ _ W). Qed.

Lemma Lmat_upper m l i j : lu_wf m l -> (i < j)%nat -> Lmat l i j = 0.
Proof.
  intros W L. unfold Lmat. rewrite delta_diff by lia. destruct (Nat.lt_ge_cases j (m - 1)) as [C|C].
  - rewrite (den_below (S j) m) by (try apply (w_low _ _ W); lia). ring.
  - rewrite nth_overflow by (rewrite (w_llow _ _ W); lia). cbn. ring.
Qed.
Lemma Lmat_diag m l i : lu_wf m l -> Lmat l i i = 1.
Proof.
  intros W. unfold Lmat. rewrite delta_same. destruct (Nat.lt_ge_cases i (m - 1)) as [C|C].
  - rewrite (den_below (S i) m) by (try apply (w_low _ _ W); lia). ring.
  - rewrite nth_overflow by (rewrite (w_llow _ _ W); lia). cbn. ring.
Qed.
Lemma Umat_lower m l i j : lu_wf m l -> (j < m)%nat -> (j < i)%nat -> Umat l i j = 0.
Proof.
  intros W Lj L. unfold Umat. rewrite delta_diff by lia. destruct j as [|j]; [ring|].
  rewrite (den_above 0 (S j)) by (try apply (w_up _ _ W); lia). ring.
Qed.
Lemma Umat_diag m l i : lu_wf m l -> (i < m)%nat -> Umat l i i = nthq (l_diag l) i.
Proof.
  intros W Li. unfold Umat. rewrite delta_same. destruct i as [|i]; [ring|].
  rewrite (den_above 0 (S i)) by (try apply (w_up _ _ W); lia). ring.
Qed.
Lemma Umat_above m l i j : lu_wf m l -> (i <> S j)%nat -> Umat l i (S j) = den (nth j (l_up l) []) i.
Proof. intros W N. unfold Umat. rewrite delta_diff by assumption. ring. Qed.

Lemma lower_injective m l w : lu_wf m l ->
  (forall i, (i < m)%nat -> sum m (fun k => Lmat l i k * w k) = 0) -> forall i, (i < m)%nat -> w i = 0.
Proof.
  intros W H. intros i. induction i as [i IH] using (well_founded_induction lt_wf). intros Li.
  specialize (H i Li). rewrite (sum_single m i) in H; [|assumption|].
  - rewrite (Lmat_diag m) in H by assumption. rewrite <- H. ring.
  - intros k Lk Nk. destruct (Nat.lt_ge_cases k i) as [C|C].
    + rewrite IH by assumption. ring.
    + rewrite (Lmat_upper m) by (assumption || lia). ring.
Qed.

(** ** The four solvers *)
Section Solvers.
Variables (m : nat) (l : lu).
Hypothesis W : lu_wf m l.

Lemma lower_left_spec : forall fuel lo rhs, fwf lo m rhs -> (m - lo <= fuel)%nat ->
  exists r, lower_left l fuel rhs = Ok r /\ fwf lo m r /\
    forall i, (i < m)%nat -> sum m (fun k => Lmat l i k * den r k) = den rhs i.
Proof.
  induction fuel as [|fuel IH]; intros lo rhs Hr Lf.
  - destruct rhs as [|[i v] t]; [|destruct Hr; lia]. exists []. split; [reflexivity|]. split; [exact I|].
    intros i Li. apply sum_zero. intros k _. cbn. ring.
  - destruct rhs as [|[row v] rhs].
    + exists []. split; [reflexivity|]. split; [exact I|].
      intros i Li. apply sum_zero. intros k _. cbn. ring.
    + destruct Hr as (H1 & Nv & Hr). cbn [lower_left]. rewrite (w_m m l W).
      assert (S1 : exists rhs', (if Nat.eqb row (m - 1) then Ok rhs
             else let* col := index (l_low l) row in
                  Ok (fold_left (fun rhs '(i, x) => insert_or_shift rhs i (v * x)) col rhs)) = Ok rhs' /\
             fwf (S row) m rhs' /\ forall k, den rhs' k = den rhs k - v * den (nth row (l_low l) []) k).
      { destruct (Nat.eqb_spec row (m - 1)) as [->|N].
        - exists rhs. split; [reflexivity|]. split; [assumption|]. intros k.
          rewrite nth_overflow by (rewrite (w_llow _ _ W); lia). cbn. ring.
        - rewrite (index_Ok _ row []) by (rewrite (w_llow _ _ W); lia). cbn [bind].
          eexists. split; [reflexivity|]. apply fold_shift; try assumption. apply (w_low _ _ W). lia. }
      destruct S1 as (rhs' & -> & Wr & Dr). cbn [bind].
      destruct (IH (S row) rhs' Wr ltac:(lia)) as (r & -> & Wr' & Hsum). cbn [bind].
      exists ((row, v) :: r). split; [reflexivity|]. split; [cbn; repeat split; try assumption; lia|].
      intros i Li. cbn [den].
      rewrite (sum_ext m _ (fun k => Lmat l i k * v * delta k row + Lmat l i k * den r k)).
      2:{ intros k _. unfold delta. destruct (Nat.eqb k row); ring. }
      rewrite sum_plus. rewrite (sum_delta_r m row (fun k => Lmat l i k * v)) by lia.
      rewrite Hsum by assumption. rewrite Dr. unfold Lmat, delta. destruct (Nat.eqb i row); ring.
Qed.

Lemma upper_left_spec : forall fuel n rhs acc, fwf 0 n rhs -> fwf n m acc -> (n <= m)%nat -> (n <= fuel)%nat ->
  exists r, upper_left l fuel rhs acc = Ok r /\ wfs m r /\
    forall i, (i < m)%nat -> sum m (fun k => Umat l i k * den r k) =
      den rhs i + sum m (fun k => Umat l i k * den acc k).
Proof.
  induction fuel as [|fuel IH]; intros n rhs acc Hr Ha Ln Lf.
  - assert (rhs = []) as -> by (destruct rhs as [|[i v] t]; [reflexivity|destruct Hr; lia]).
    exists acc. split; [reflexivity|]. split; [apply fwf_weaken with n; [lia|assumption]|].
    intros i Li. cbn [den]. ring.
  - cbn [upper_left]. pose proof (pop_last_spec 0 n rhs Hr) as P.
    destruct (pop_last rhs) as [[[row v] t]|].
    + destruct P as (-> & Ht & Lr & Nv). rewrite index_nthq by (rewrite (w_ldiag _ _ W); lia). cbn [bind].
      set (x := v / nthq (l_diag l) row).
      assert (Nx : x <> 0) by (apply Qc_div_neq0; [assumption|apply (w_diag _ _ W); lia]).
      assert (S1 : exists rhs', (if Nat.ltb 0 row
             then let* col := index (l_up l) (row - 1) in
                  Ok (fold_left (fun rhs '(i, u) => insert_or_shift rhs i (x * u)) col t)
             else Ok t) = Ok rhs' /\ fwf 0 row rhs' /\
             forall k, den rhs' k = den t k - x * match row with 0%nat => 0 | S j => den (nth j (l_up l) []) k end).
      { destruct row as [|j]; cbn [Nat.ltb Nat.leb].
        - exists t. split; [reflexivity|]. split; [assumption|]. intros. ring.
        - replace (S j - 1)%nat with j by lia.
          rewrite (index_Ok _ j []) by (rewrite (w_lup _ _ W); lia). cbn [bind].
          eexists. split; [reflexivity|]. apply fold_shift; try assumption. apply (w_up _ _ W). lia. }
      destruct S1 as (rhs' & -> & Wr & Dr). cbn [bind].
      destruct (IH row rhs' ((row, x) :: acc) Wr) as (r & -> & Wr' & Hsum); try lia.
      { cbn. repeat split; try assumption; try lia. apply fwf_weaken with n; [lia|assumption]. }
      exists r. split; [reflexivity|]. split; [assumption|]. intros i Li. rewrite Hsum by assumption.
      cbn [den]. rewrite (sum_ext m _ (fun k => Umat l i k * x * delta k row + Umat l i k * den acc k)).
      2:{ intros k _. unfold delta. destruct (Nat.eqb k row); ring. }
      rewrite sum_plus. rewrite (sum_delta_r m row (fun k => Umat l i k * x)) by lia.
      rewrite Dr, den_app. cbn [den]. unfold Umat, delta.
      destruct (Nat.eqb_spec i row) as [->|N].
      * assert (Ev : nthq (l_diag l) row * x = v) by (unfold x; field; apply (w_diag _ _ W); lia).
        rewrite <- Ev. ring.
      * ring.
    + subst rhs. exists acc. split; [reflexivity|]. split; [apply fwf_weaken with n; [lia|assumption]|].
      intros i Li. cbn [den]. ring.
Qed.

Lemma bsearch_nth (col : svec) lo n row : fwf lo n col -> (lo <= row)%nat ->
  match bsearch row col with
  | (true, k) => snd (nth k col (0%nat, 0)) = den col row /\ den col row <> 0
  | (false, _) => den col row = 0
  end.
Proof.
  intros H L. pose proof (bsearch_spec lo n col row H) as B. destruct (bsearch row col) as [[] k]; [|assumption].
  destruct B as [B1 B2]. split; [|assumption]. now rewrite (nth_error_nth _ _ _ B1).
Qed.

Lemma lower_right_spec : forall fuel n rhs acc, fwf 0 n rhs -> fwf n m acc -> (n <= m)%nat -> (n <= fuel)%nat ->
  exists r, lower_right l fuel rhs acc = Ok r /\ wfs m r /\
    forall j, (j < m)%nat -> sum m (fun k => den r k * Lmat l k j) =
      den rhs j + sum m (fun k => den acc k * Lmat l k j).
Proof.
  induction fuel as [|fuel IH]; intros n rhs acc Hr Ha Ln Lf.
  - assert (rhs = []) as -> by (destruct rhs as [|[i v] t]; [reflexivity|destruct Hr; lia]).
    exists acc. split; [reflexivity|]. split; [apply fwf_weaken with n; [lia|assumption]|].
    intros i Li. cbn [den]. ring.
  - cbn [lower_right]. pose proof (pop_last_spec 0 n rhs Hr) as P.
    destruct (pop_last rhs) as [[[row v] t]|].
    + destruct P as (-> & Ht & Lr & Nv).
      set (step := fun rhs j => _).
      destruct (range_shift 0 row v (fun j => den (nth j (l_low l) []) row) step Nv row 0 t) as (rhs' & E & Wr & Dr); try assumption; try lia.
      { intros j rhs' Hj. unfold step. rewrite (index_Ok _ j []) by (rewrite (w_llow _ _ W); lia). cbn [bind].
        pose proof (bsearch_nth (nth j (l_low l) []) (S j) m row (w_low _ _ W j ltac:(lia)) ltac:(lia)) as B.
        destruct (bsearch row (nth j (l_low l) [])) as [[] k].
        - destruct B as [-> B]. destruct (qzero (den (nth j (l_low l) []) row)) eqn:Z; [now qb|reflexivity].
        - rewrite B. reflexivity. }
      rewrite E. cbn [bind].
      destruct (IH row rhs' ((row, v) :: acc) Wr) as (r & -> & Wr' & Hsum); try lia.
      { cbn. repeat split; try assumption; try lia. apply fwf_weaken with n; [lia|assumption]. }
      exists r. split; [reflexivity|]. split; [assumption|]. intros j Lj. rewrite Hsum by assumption.
      cbn [den]. rewrite (sum_ext m _ (fun k => v * Lmat l k j * delta k row + den acc k * Lmat l k j)).
      2:{ intros k _. unfold delta. destruct (Nat.eqb k row); ring. }
      rewrite sum_plus. rewrite (sum_delta_r m row (fun k => v * Lmat l k j)) by lia.
      rewrite Dr, den_app. cbn [den Nat.leb andb Nat.add].
      destruct (Nat.ltb_spec j row) as [C|C].
      * rewrite (proj2 (Nat.eqb_neq j row)) by lia. unfold Lmat. rewrite (delta_diff row j) by lia. ring.
      * destruct (Nat.eqb_spec j row) as [->|N].
        -- rewrite (Lmat_diag m) by assumption. ring.
        -- rewrite (Lmat_upper m) by (assumption || lia). ring.
    + subst rhs. exists acc. split; [reflexivity|]. split; [apply fwf_weaken with n; [lia|assumption]|].
      intros i Li. cbn [den]. ring.
Qed.

Lemma upper_right_spec : forall fuel lo rhs, fwf lo m rhs -> (m - lo <= fuel)%nat ->
  exists r, upper_right l fuel rhs = Ok r /\ fwf lo m r /\
    forall j, (j < m)%nat -> sum m (fun k => den r k * Umat l k j) = den rhs j.
Proof.
  induction fuel as [|fuel IH]; intros lo rhs Hr Lf.
  - destruct rhs as [|[i v] t]; [|destruct Hr; lia]. exists []. split; [reflexivity|]. split; [exact I|].
    intros i Li. apply sum_zero. intros k _. cbn. ring.
  - destruct rhs as [|[row v] t].
    + exists []. split; [reflexivity|]. split; [exact I|].
      intros i Li. apply sum_zero. intros k _. cbn. ring.
    + destruct Hr as (H1 & Nv & Ht). cbn [upper_right]. rewrite index_nthq by (rewrite (w_ldiag _ _ W); lia).
      cbn [bind]. set (x := v / nthq (l_diag l) row).
      assert (Nx : x <> 0) by (apply Qc_div_neq0; [assumption|apply (w_diag _ _ W); lia]).
      set (step := fun rhs j => _).
      destruct (range_shift (S row) m x (fun j => den (nth (j - 1) (l_up l) []) row) step Nx (m - S row) (S row) t)
        as (rhs' & E & Wr & Dr); try assumption; try lia.
      { intros j rhs' Hj. unfold step. rewrite (index_Ok _ (j - 1) []) by (rewrite (w_lup _ _ W); lia). cbn [bind].
        pose proof (bsearch_nth (nth (j - 1) (l_up l) []) 0 _ row (w_up _ _ W (j - 1) ltac:(lia)) ltac:(lia)) as B.
        destruct (bsearch row (nth (j - 1) (l_up l) [])) as [[] k].
        - destruct B as [-> B]. destruct (qzero (den (nth (j - 1) (l_up l) []) row)) eqn:Z; [now qb|reflexivity].
        - rewrite B. reflexivity. }
      rewrite (w_m m l W). unfold range at 1. rewrite E. cbn [bind].
      destruct (IH (S row) rhs' Wr ltac:(lia)) as (r & -> & Wr' & Hsum). cbn [bind].
      exists ((row, x) :: r). split; [reflexivity|]. split; [cbn; repeat split; try assumption; lia|].
      intros j Lj. cbn [den].
      rewrite (sum_ext m _ (fun k => x * Umat l k j * delta k row + den r k * Umat l k j)).
      2:{ intros k _. unfold delta. destruct (Nat.eqb k row); ring. }
      rewrite sum_plus. rewrite (sum_delta_r m row (fun k => x * Umat l k j)) by lia.
      rewrite Hsum by assumption. rewrite Dr. replace (S row + (m - S row))%nat with m by lia.
      rewrite (proj2 (Nat.ltb_lt j m)) by lia. rewrite andb_true_r.
      destruct (Nat.leb_spec (S row) j) as [C|C].
      * rewrite (proj2 (Nat.eqb_neq j row)) by lia. destruct j as [|j]; [lia|].
        rewrite (Umat_above m) by (assumption || lia). replace (S j - 1)%nat with j by lia. ring.
      * destruct (Nat.eqb_spec j row) as [->|N].
        -- rewrite (Umat_diag m) by (assumption || lia).
           assert (Ev : x * nthq (l_diag l) row = v) by (unfold x; field; apply (w_diag _ _ W); lia).
           rewrite <- Ev. ring.
        -- rewrite (Umat_lower m) by (assumption || lia). rewrite (den_below (S row) m t) by (assumption || lia). ring.
Qed.

(** every right hand side has a solution *)
Lemma lower_solvable (b : vec) : exists w : vec,
  forall i, (i < m)%nat -> sum m (fun k => Lmat l i k * w k) = b i.
Proof.
  destruct (sfrom_spec (map b (seq 0 m))) as [Ws Ds]. rewrite map_length, seq_length in Ws.
  destruct (lower_left_spec m 0 _ Ws ltac:(lia)) as (r & _ & _ & H). exists (den r).
  intros i Li. rewrite H by assumption. rewrite Ds. unfold nthq.
  rewrite (nth_indep _ 0 (b 0%nat)) by now rewrite map_length, seq_length.
  rewrite map_nth, seq_nth by assumption. reflexivity.
Qed.
End Solvers.
