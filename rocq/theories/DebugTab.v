(** * With assertions: the tableau operations are those of the release build *)
From Verif Require Export DebugSolve DebugLuP PhaseP.

Lemma bind_same {A B} (e e' : res A) (f g : A -> res B) :
  e = e' -> (forall a, e' = Ok a -> f a = g a) -> bind e f = bind e' g.
Proof. intros -> H. destruct e'; cbn [bind]; [now apply H|reflexivity|reflexivity]. Qed.
Lemma bind_assert {A B} (b : bool) (e : res A) (f : A -> res B) : b = true ->
  bind (bind (assert b) (fun _ => e)) f = bind e f.
Proof. now intros ->. Qed.

(** What the operations of the debug build have to do with those of the release build.  [d_ok] and
    [d_okinv] are the numbers of rows for which the assertions can hold at all. *)
Record DLaws {O} (L : BILaws O) (D : DOps O) := mk_dlaws {
  d_ok : nat -> Prop;
  d_okinv : nat -> Prop;
  dl_pos : forall m, d_ok m -> (0 < m)%nat;
  dl_invert_ok : forall m, d_okinv m -> ok_invert L m;
  dl_m : forall m b N, rep L m b N -> d_m D b = m;
  dl_identity : forall m, d_ok m -> d_identity D m = bi_identity O m;
  dl_invert : forall m N cols, d_okinv m -> length cols = m -> Forall (wfs m) cols ->
    is_inverse m N (cols_mat cols) -> d_invert D cols = bi_invert O cols;
  dl_left : forall m b N a, d_ok m -> rep L m b N -> wfs m a -> d_left D b a = bi_left O b a;
  dl_right : forall m b N r, d_ok m -> rep L m b N -> wfs m r -> r <> [] -> d_right D b r = bi_right O b r;
  dl_elem : forall m b N i a, d_ok m -> rep L m b N -> wfs m a -> (i < m)%nat ->
    d_elem D b i a = bi_elem O b i a;
  dl_row : forall m b N i, d_ok m -> rep L m b N -> (i < m)%nat -> d_row D b i = bi_row O b i;
  dl_change : forall m b N a c p, d_ok m -> rep L m b N -> wfs m a -> bi_left O b a = Ok c ->
    (p < m)%nat -> den (cci_col O c) p <> 0 -> d_change D b p c = bi_change O b p c;
  dl_refactor : forall m b N, bi_refactor O b = true -> rep L m b N -> d_ok m -> d_okinv m;
  dl_remove :
    match d_remove D, bi_remove O with
    | Some f, Some g => forall m b N rm, rep L m b N -> sorted_rows m rm -> increasing_from 0 rm -> (length rm < m)%nat ->
        f b rm = g b rm
    | None, None => True
    | _, _ => False
    end
}.

Section Tab.
Variable O : BIOps.
Variable L : BILaws O.
Variable D : DOps O.
Variable DL : DLaws L D.
Local Notation ok := (d_ok L D DL).

Lemma slice_ok m l : wfs m l -> slice_iter l = Ok l.
Proof. intros W. unfold slice_iter. apply asserted. now apply (fwf_nonzero m l 0). Qed.

Lemma slices_ok m l : Forall (wfs m) l -> mapM slice_iter l = Ok l.
Proof.
  induction 1 as [|x l W F IH]; [reflexivity|]. cbn [mapM]. rewrite (slice_ok m) by assumption. cbn [bind].
  now rewrite IH.
Qed.

Lemma original_same k j : kind_ok k -> (j < k_cols k)%nat -> original_d k j = Ok (k_col k j).
Proof.
  intros [W _] Lj. unfold original_d. rewrite asserted by now apply Nat.ltb_lt. apply (slice_ok (k_rows k)). now apply W.
Qed.
Lemma in_basis_same k (t : tableau O) j : (j < k_cols k)%nat -> in_basis_d O k t j = Ok (in_basis t j).
Proof. intros Lj. unfold in_basis_d. apply asserted. now apply Nat.ltb_lt. Qed.
Lemma relative_cost_same k (t : tableau O) j : kind_ok k -> (j < k_cols k)%nat ->
  relative_cost_d O k t j = Ok (relative_cost k t j).
Proof. intros K Lj. unfold relative_cost_d. now rewrite original_same. Qed.

Lemma generate_column_same k rhs t j : kind_ok k -> tab_inv L k rhs t -> ok (k_rows k) -> (j < k_cols k)%nat ->
  generate_column_d O D k t j = generate_column k t j.
Proof.
  intros K [I _] Ok' Lj. unfold generate_column_d. rewrite original_same by assumption. cbn [bind].
  destruct (ci_rep _ _ _ _ _ I) as (N & Rp & _). apply (dl_left L D DL (k_rows k) _ N); try assumption. now apply (proj1 K).
Qed.

Lemma generate_element_same k rhs t i j : kind_ok k -> tab_inv L k rhs t -> ok (k_rows k) ->
  (i < k_rows k)%nat -> (j < k_cols k)%nat ->
  generate_element_d O D k t i j = generate_element k t i j.
Proof.
  intros K [I _] Ok' Li Lj. unfold generate_element_d. rewrite asserted by now apply Nat.ltb_lt.
  rewrite original_same by assumption. cbn [bind].
  rewrite asserted by (apply Nat.ltb_lt; now rewrite (ci_lb _ _ _ _ _ I)).
  destruct (ci_rep _ _ _ _ _ I) as (N & Rp & _). apply (dl_elem L D DL (k_rows k) _ N); try assumption. now apply (proj1 K).
Qed.

Lemma select_row_same k rhs t col : tab_inv L k rhs t -> wfs (k_rows k) col ->
  select_row_d O D k t col = select_row t col.
Proof.
  intros [I _] W. unfold select_row_d. destruct (ci_rep _ _ _ _ _ I) as (N & Rp & _).
  rewrite asserted by (apply Nat.eqb_eq; now apply (dl_m L D DL _ _ N)).
  now rewrite (slice_ok (k_rows k)).
Qed.

Lemma carry_change_leaving (c : carry O) p q cc cost k c' info :
  carry_change c p q cc cost k = Ok (c', info) -> i_leaving info = bcol (c_basis c) p.
Proof.
  unfold carry_change. intros H.
  destruct (bi_right O (c_bi c) (cci_col O cc)); try discriminate H. cbn [bind] in H.
  destruct (update_b (c_b c) p (cci_col O cc)); try discriminate H. cbn [bind] in H.
  destruct (index (c_basis c) p) as [lv| |] eqn:E; try discriminate H. cbn [bind] in H.
  destruct (if bi_refactor O (c_bi c) then _ else _) as [[i bf]| |]; try discriminate H. cbn [bind] in H.
  destruct (bi_row O i p); try discriminate H. cbn [bind] in H.
  destruct (update_mpi (c_mpi c) cost a1); try discriminate H. cbn [bind] in H.
  destruct (index a0 p); try discriminate H. cbn [bind] in H. inversion H. cbn [i_leaving].
  apply (index_inv _ _ _ 0%nat) in E. symmetry. apply E.
Qed.

Lemma carry_change_same k rhs t p q cc cost :
  kind_ok k -> tab_inv L k rhs t -> ok (k_rows k) -> (q < k_cols k)%nat ->
  generate_column k t q = Ok cc -> (p < k_rows k)%nat -> den (cci_col O cc) p <> 0 ->
  carry_change_d O D (t_im t) p q cc cost k = carry_change (t_im t) p q cc cost k.
Proof.
  intros Hk HI Hok Lq Hcc Lp Np.
  destruct (column_spec O L k rhs t q Hk HI Lq) as (cc' & N & Ecc & Wc & Rp & Inv & Vw & HBw).
  rewrite Hcc in Ecc. inversion Ecc; subst cc'. clear Ecc.
  destruct HI as [I S]. set (m := k_rows k) in *. set (c := t_im t) in *.
  pose proof (ci_lb _ _ _ _ _ I) as Lb. pose proof (ci_lbasis _ _ _ _ _ I) as Lba. fold m in Lb, Lba.
  pose proof (dl_m L D DL _ _ N Rp) as Em.
  assert (NE : cci_col O cc <> []) by now apply (den_neq_nil _ p).
  set (basis' := upd (c_basis c) p q).
  assert (Lbas' : length basis' = m) by (unfold basis'; now rewrite upd_length).
  assert (Rng' : forall r, (r < m)%nat -> (bcol basis' r < k_cols k)%nat).
  { intros r Lr. unfold bcol, basis'. rewrite upd_nth by lia.
    destruct (Nat.eqb r p); [assumption|]. now apply (ci_range _ _ _ _ _ I). }
  assert (Inv' : is_inverse m (pivot N p (den (cci_col O cc))) (bmat k basis')).
  { apply inverse_ext with (pivot N p (den (cci_col O cc))) (set_col (bmat k (c_basis c)) p (fun i => kA k i q)).
    - apply meq_refl.
    - intros i r Li Lr. symmetry. apply bmat_upd. now rewrite Lba.
    - apply pivot_inverse; try assumption. }
  assert (Ecols : basis_columns_of k basis' = Ok (map (k_col k) basis')).
  { apply basis_columns_of_spec. rewrite Lbas'. assumption. }
  assert (Wcols : Forall (wfs m) (map (k_col k) basis')).
  { apply Forall_forall. intros x Hx. apply in_map_iff in Hx. destruct Hx as (j & <- & Hj).
    apply (proj1 Hk). apply In_bcol in Hj. destruct Hj as (r & Lr & <-). apply Rng'. now rewrite <- Lbas'. }
  assert (InvC : is_inverse m (pivot N p (den (cci_col O cc))) (cols_mat (map (k_col k) basis'))).
  { apply inverse_ext with (pivot N p (den (cci_col O cc))) (bmat k basis'); [apply meq_refl| |assumption].
    intros i r Li Lr. symmetry. apply cols_mat_map. now rewrite Lbas'. }
  assert (Wl : wfs m (k_col k q)) by now apply (proj1 Hk).
  unfold carry_change_d, carry_change. cbv zeta. rewrite Em.
  rewrite asserted by (apply Nat.ltb_lt; lia). rewrite asserted by (apply Nat.eqb_eq; congruence).
  rewrite (slice_ok m) by assumption. cbn [bind].
  apply bind_same; [now apply (dl_right L D DL m _ N)|]. intros work _.
  apply bind_same.
  { unfold update_b_d, update_b. rewrite !asserted; try (apply Nat.ltb_lt; lia); [|apply Nat.eqb_eq; congruence].
    apply bind_same; [reflexivity|]. intros pv _. apply bind_same; [reflexivity|]. intros bp _. cbv zeta.
    now rewrite (slice_ok m). }
  intros b _. apply bind_same; [reflexivity|]. intros leaving _. fold basis'.
  apply bind_same.
  { destruct (bi_refactor O (c_bi c)) eqn:Rf; [|now apply (dl_change L D DL m _ N (k_col k q))].
    unfold basis_columns_d. rewrite Ecols. cbn [bind]. rewrite (slices_ok m) by assumption. cbn [bind].
    rewrite (dl_invert L D DL m (pivot N p (den (cci_col O cc)))); try assumption.
    - reflexivity.
    - now apply (dl_refactor L D DL m (c_bi c) N).
    - now rewrite map_length. }
  intros [i bf] Ei.
  assert (Rep' : rep L m i (pivot N p (den (cci_col O cc)))).
  { destruct (bi_refactor O (c_bi c)) eqn:Rf.
    - rewrite Ecols in Ei. cbn [bind] in Ei. destruct (bi_invert O (map (k_col k) basis')) eqn:Ei0; try discriminate Ei.
      cbn [bind] in Ei. inversion Ei; subst a bf.
      apply (law_invert O L m (map (k_col k) basis') i); try assumption. now rewrite map_length.
    - now apply (law_change O L m (c_bi c) N (k_col k q) cc p i bf) in Ei. }
  destruct (law_row O L m i (pivot N p (den (cci_col O cc))) p Rep' Lp) as (row & Er & Wr & Vr).
  apply bind_same; [now apply (dl_row L D DL m _ (pivot N p (den (cci_col O cc))))|].
  intros row' Er'. rewrite Er in Er'. inversion Er'; subst row'.
  apply bind_same.
  { unfold update_mpi_d. now rewrite (slice_ok m). }
  reflexivity.
Qed.

Lemma bring_into_basis_same k rhs t p q cc cost :
  kind_ok k -> tab_inv L k rhs t -> ok (k_rows k) -> (q < k_cols k)%nat -> ~ In q (t_cols t) ->
  generate_column k t q = Ok cc -> (p < k_rows k)%nat -> den (cci_col O cc) p <> 0 ->
  bring_into_basis_d O D k t q p cc cost = bring_into_basis k t q p cc cost.
Proof.
  intros Hk HI Hok Lq Nq Hcc Lp Np. unfold bring_into_basis_d, bring_into_basis.
  rewrite !asserted by (apply Nat.ltb_lt; assumption).
  apply bind_same; [now apply (carry_change_same k rhs)|]. intros [c info] E.
  apply carry_change_leaving in E. rewrite E. destruct HI as [I S].
  assert (Lp' : (p < length (c_basis (t_im t)))%nat) by now rewrite (ci_lbasis _ _ _ _ _ I).
  rewrite asserted by (apply Nat.ltb_lt; now apply (ci_range _ _ _ _ _ I)).
  rewrite asserted by (apply memb_In, S; now apply nth_In).
  assert (M : memb q (filter (fun j => negb (Nat.eqb j (bcol (c_basis (t_im t)) p))) (t_cols t)) = false).
  { apply memb_false. intros C. apply filter_In in C. now apply Nq. }
  rewrite M. now rewrite asserted.
Qed.

(** ** The check of the state *)
Lemma svec_eqb_spec a : forall b, svec_eqb a b = true <-> a = b.
Proof.
  induction a as [|[i v] a IH]; intros [|[j w] b]; cbn [svec_eqb]; split; try discriminate; try reflexivity.
  - intros H. apply andb_true_iff in H. destruct H as [H H3]. apply andb_true_iff in H. destruct H as [H1 H2].
    apply Nat.eqb_eq in H1. apply IH in H3. qb. now subst.
  - intros [= -> -> ->]. rewrite Nat.eqb_refl. cbn [andb]. assert (qeqb w w = true) as -> by now apply qeqb_true. now apply IH.
Qed.

(** a sorted list with non-zero values is determined by the vector it stands for *)
Lemma fwf_unique m : forall a b lo, fwf lo m a -> fwf lo m b ->
  (forall i, (i < m)%nat -> den a i = den b i) -> a = b.
Proof.
  assert (Low : forall l lo x, fwf lo m l -> (x < lo)%nat -> den l x = 0).
  { induction l as [|[i v] l IH]; intros lo x W Lx; [reflexivity|]. destruct W as (W1 & W2 & W3). cbn [den].
    destruct (Nat.eqb_spec x i); [lia|]. rewrite (IH (S i)) by (try assumption; lia). ring. }
  assert (Head : forall i v l lo, fwf lo m ((i, v) :: l) -> den ((i, v) :: l) i = v).
  { intros i v l lo (W1 & W2 & W3). cbn [den]. rewrite Nat.eqb_refl. rewrite (Low l (S i)) by (try assumption; lia). ring. }
  induction a as [|[i v] a IH]; intros [|[j w] b] lo Wa Wb E.
  - reflexivity.
  - exfalso. pose proof (Head _ _ _ _ Wb) as H. destruct Wb as (W1 & W2 & _). apply W2. rewrite <- H, <- E by lia. reflexivity.
  - exfalso. pose proof (Head _ _ _ _ Wa) as H. destruct Wa as (W1 & W2 & _). apply W2. rewrite <- H, E by lia. reflexivity.
  - pose proof (Head _ _ _ _ Wa) as Ha. pose proof (Head _ _ _ _ Wb) as Hb.
    pose proof Wa as (A1 & A2 & A3). pose proof Wb as (B1 & B2 & B3).
    assert (i = j).
    { destruct (Nat.lt_trichotomy i j) as [C|[C|C]]; [|assumption|]; exfalso.
      - apply A2. rewrite <- Ha, E by lia. cbn [den]. destruct (Nat.eqb_spec i j); [lia|].
        rewrite (Low b (S j)) by (try assumption; lia). ring.
      - apply B2. rewrite <- Hb, <- E by lia. cbn [den]. destruct (Nat.eqb_spec j i); [lia|].
        rewrite (Low a (S i)) by (try assumption; lia). ring. }
    subst j. assert (v = w) by (rewrite <- Ha, <- Hb; apply E; lia). subst w. f_equal.
    apply (IH b (S i)); try assumption. intros x Lx. specialize (E x Lx). cbn [den] in E.
    destruct (Nat.eqb_spec x i) as [Ex|Ne].
    + rewrite (Low a (S i)), (Low b (S i)) by (try assumption; lia). reflexivity.
    + assert (G : forall z : Qc, 0 + z = z) by (intros; ring). now rewrite !G in E.
Qed.

Lemma checks_ok {A} (f : A -> res unit) l : (forall x, In x l -> f x = Ok tt) -> exists r, mapM f l = Ok r.
Proof.
  induction l as [|x l IH]; intros H; cbn [mapM]; [now eexists|]. rewrite H by now left. cbn [bind].
  destruct IH as [r ->]; [intros; apply H; now right|]. cbn [bind]. now eexists.
Qed.

Lemma basis_size k rhs t : tab_inv L k rhs t -> set_size (t_cols t) = k_rows k.
Proof.
  intros [I S]. unfold set_size. rewrite <- (ci_lbasis _ _ _ _ _ I).
  assert (ND : NoDup (c_basis (t_im t))).
  { destruct (ci_rep _ _ _ _ _ I) as (N & _ & HN). apply (NoDup_nth _ 0%nat). rewrite (ci_lbasis _ _ _ _ _ I).
    intros i j Li Lj E. now apply (inverse_injective (k_rows k) k N (c_basis (t_im t))). }
  apply Nat.le_antisymm.
  - apply NoDup_incl_length; [apply NoDup_nodup|]. intros x Hx. apply S. now apply nodup_In in Hx.
  - apply NoDup_incl_length; [assumption|]. intros x Hx. apply nodup_In. now apply S.
Qed.

Lemma bfs_state_ok k rhs t : kind_ok k -> tab_inv L k rhs t -> ok (k_rows k) -> bfs_state_d O D k t = Ok tt.
Proof.
  intros K HI Hok. unfold bfs_state_d. rewrite asserted by (apply Nat.eqb_eq; now apply (basis_size k rhs)).
  pose proof HI as [I S]. pose proof (ci_lbasis _ _ _ _ _ I) as Lba. pose proof (ci_lb _ _ _ _ _ I) as Lb.
  pose proof (dl_pos L D DL _ Hok) as Pos.
  match goal with |- bind (mapM ?f ?l) _ = _ => destruct (checks_ok f l) as [r1 E1] end.
  { intros i Hi. apply in_seq in Hi. rewrite (index_Ok _ _ 0%nat) by lia. cbn [bind]. fold (bcol (c_basis (t_im t)) i).
    assert (Lj : (bcol (c_basis (t_im t)) i < k_cols k)%nat) by (apply (ci_range _ _ _ _ _ I); lia).
    change [(i, 1)] with (sbasis i).
    assert (Ws : wfs (k_rows k) (sbasis i)) by (apply sbasis_wfs; lia).
    rewrite sparse_new_ok by assumption. cbn [bind]. rewrite (generate_column_same k rhs) by assumption.
    destruct (column_spec O L k rhs t (bcol (c_basis (t_im t)) i) K HI Lj) as (cc & N & Ec & Wc & Rp & HN & V & _).
    rewrite Ec. cbn [bind]. unfold assert.
    assert (E : cci_col O cc = sbasis i).
    { apply (fwf_unique (k_rows k) _ _ 0%nat Wc Ws). intros x Lx. rewrite V by assumption. rewrite den_sbasis.
      rewrite delta_sym. rewrite <- (proj1 HN x i Lx) by lia. reflexivity. }
    rewrite E. now rewrite (proj2 (svec_eqb_spec _ _) eq_refl). }
  rewrite E1. cbn [bind].
  match goal with |- bind (mapM ?f ?l) _ = _ => destruct (checks_ok f l) as [r2 E2] end.
  { intros i Hi. apply in_seq in Hi. rewrite (index_Ok _ _ 0%nat) by lia. cbn [bind]. fold (bcol (c_basis (t_im t)) i).
    rewrite relative_cost_same; [|assumption|apply (ci_range _ _ _ _ _ I); lia]. cbn [bind]. unfold assert.
    rewrite (relative_cost_basic O L k rhs t _ K HI); [reflexivity|]. apply S. apply nth_In. lia. }
  rewrite E2. cbn [bind].
  match goal with |- bind (mapM ?f ?l) _ = _ => destruct (checks_ok f l) as [r3 E3] end.
  { intros i Hi. apply in_seq in Hi. rewrite index_nthq by lia. cbn [bind]. unfold assert.
    assert (qleb 0 (nthq (c_b (t_im t)) i) = true) as ->; [|reflexivity].
    assert (0 <= nthq (c_b (t_im t)) i) by (apply (ci_nonneg _ _ _ _ _ I); lia). now apply qleb_true. }
  now rewrite E3.
Qed.

End Tab.
