(** * Sizes of numbers of general form programs: proofs *)
From Verif Require Import SpecSize SpecGSize DetQ SizeP SpecGeneral GeneralForm StandardP StandardQ StandardR MatrixData MatrixDataP.
From Verif Require Import Pipeline SolverQ SolverP PipelineP KindP ArtP.
Local Open Scope Qc_scope.

(** ** Multiples of a fraction *)
Lemma small_parts d K x : zsmall K (x * zq_of (Zpos d)) -> parts d K x.
Proof.
  intros (z & E & L). exists z. split; [|exact L]. pose proof (zq_pos_nonzero d) as N.
  assert (P : Q2Qc (z # d) * zq_of (Zpos d) = zq_of z).
  { apply Qc_is_canon. unfold zq_of, Qcmult. rewrite !this_q. unfold Qeq, Qmult, inject_Z. cbn [Qnum Qden]. lia. }
  assert (F : x * zq_of (Zpos d) * / zq_of (Zpos d) = Q2Qc (z # d) * zq_of (Zpos d) * / zq_of (Zpos d)) by (rewrite E, P; reflexivity).
  rewrite <- !Qcmult_assoc, !Qcmult_inv_r, !Qcmult_1_r in F by exact N. exact F.
Qed.
Lemma parts_le d K L x : (K <= L)%Z -> parts d K x -> parts d L x.
Proof. intros H (z & E & B). exists z. split; [exact E|lia]. Qed.
Lemma parts_opp d K x : parts d K x -> parts d K (- x).
Proof. intros H. apply small_parts. replace (- x * zq_of (Zpos d)) with (- (x * zq_of (Zpos d))) by ring. now apply zsmall_opp, parts_small. Qed.
Lemma parts_add d K L x y : parts d K x -> parts d L y -> parts d (K + L) (x + y).
Proof. intros X Y. apply small_parts. rewrite Qcmult_plus_distr_l. apply zsmall_add; now apply parts_small. Qed.
Lemma parts_sub d K L x y : parts d K x -> parts d L y -> parts d (K + L) (x - y).
Proof. intros X Y. unfold Qcminus. apply parts_add; [exact X|now apply parts_opp]. Qed.
Lemma parts_mul d e K L x y : parts d K x -> parts e L y -> parts (d * e) (K * L) (x * y).
Proof.
  intros X Y. apply small_parts. rewrite Pos2Z.inj_mul, zq_mul.
  replace (x * y * (zq_of (Zpos d) * zq_of (Zpos e))) with (x * zq_of (Zpos d) * (y * zq_of (Zpos e))) by ring.
  apply zsmall_mul; now apply parts_small.
Qed.
Lemma parts_nonneg d K x : parts d K x -> (0 <= K)%Z.
Proof. intros (z & _ & L). lia. Qed.
Lemma parts_finer d e K x : parts d K x -> parts (d * e) (K * Zpos e) x.
Proof. intros X. rewrite <- (Qcmult_1_r x). apply parts_mul; [exact X|]. apply parts_1. lia. Qed.

Lemma filter_short {A} (f : A -> bool) l : (length (filter f l) <= length l)%nat.
Proof. induction l as [|x l IH]; cbn; [lia|]. destruct (f x); cbn; lia. Qed.

(** ** Through the steps of standardizing *)
Section Sizes.
Variables (d : positive) (K : Z).
Hypothesis KD : (Zpos d <= K)%Z.
(** a variable that was not shifted yet, and one after it *)
Record raw (v : variable) : Prop := mk_raw {
  rw_cost : parts d K (v_cost v);
  rw_lower : forall l, v_lower v = Some l -> parts d K l;
  rw_upper : forall u, v_upper v = Some u -> parts d K u;
  rw_shift : v_shift v = 0
}.
Record sized (v : variable) : Prop := mk_sized {
  sz_cost : parts d K (v_cost v);
  sz_upper : forall u, v_upper v = Some u -> parts d (2 * K) u;
  sz_shift : parts d K (v_shift v)
}.
Definition level (t : nat) : Z := (K * Zpos d + Z.of_nat t * (K * K))%Z.
Lemma level_S t : level (S t) = (level t + K * K)%Z.
Proof using. unfold level. rewrite Nat2Z.inj_succ. ring. Qed.
Lemma level_le t t' : (t <= t')%nat -> (level t <= level t')%Z.
Proof using KD. intros L. unfold level. nia. Qed.
(** what holds after [t] shifts of a program that had [n] variables *)
Record stage (n t : nat) (g : general) : Prop := mk_stage {
  st_fixed : parts (d * d) (level t) (g_fixed g);
  st_cols : forall i j, parts d K (coefficient g i j);
  st_b : forall i, (i < g_rows g)%nat -> parts (d * d) (level t) (nthq (g_b g) i);
  st_range : forall i r, row_type g i = Range r -> parts d K r;
  st_new : forall j, (n <= j)%nat -> v_upper (var g j) = None
}.

Lemma split_fold_size n : forall l g g', gpre l g -> stage n 0 g -> (n <= nr_vars g)%nat -> (forall j, (j < nr_vars g)%nat -> raw (var g j)) -> foldM split_one l g = Ok g' ->
  stage n 0 g' /\ (forall j, (j < nr_vars g')%nat -> raw (var g' j)) /\ nr_vars g' = (nr_vars g + length l)%nat /\ g_rows g' = g_rows g.
Proof using KD.
  induction l as [|j l IH]; intros g g' P S Ln V E; cbn [foldM] in E.
  - injection E as <-. split; [exact S|]. split; [exact V|]. split; [cbn [length]; lia|reflexivity].
  - assert (Lj : (j < nr_vars g)%nat /\ freev (var g j)) by (apply (gp_list _ _ P); now left). destruct Lj as [Lj [Fl Fu]].
    destruct (gp_free _ _ P j (or_introl eq_refl)) as [Ff Fn].
    destruct (split_one_ok g j Lj (gp_from _ _ P) Fn) as (g1 & E1 & HO & HF & HR & HC & HT & HB & HN & HV & HVj & HVn & _).
    rewrite E1 in E. cbn [bind] in E.
    assert (V1 : forall k, (k < nr_vars g1)%nat -> raw (var g1 k)).
    { intros k Lk. rewrite HN in Lk. destruct (Nat.eq_dec k j) as [->|Nk].
      - rewrite HVj. destruct (V j Lj). constructor; cbn; auto. intros l0 [= <-]. apply parts_0. lia.
      - destruct (Nat.eq_dec k (nr_vars g)) as [->|Nk']; [|rewrite HV by lia; apply V; lia].
        rewrite HVn. destruct (V j Lj). constructor; cbn; auto; try congruence; [now apply parts_opp|]. intros l0 [= <-]. apply parts_0. lia. }
    destruct (IH g1 g') as (S' & V' & N' & R'); auto.
    + exact (split_pre _ _ _ _ P E1).
    + destruct S as [S1 S2 S3 S4 S5]. constructor.
      * now rewrite HF.
      * intros i k. unfold coefficient. rewrite HC. apply S2.
      * intros i Li. rewrite HB. apply S3. congruence.
      * intros i r. unfold row_type. rewrite HT. apply S4.
      * intros k Lk. destruct (Nat.lt_ge_cases k (nr_vars g1)) as [Lk'|Lk'].
        -- rewrite HN in Lk'. destruct (Nat.eq_dec k j) as [->|Nk]; [rewrite HVj; cbn; exact Fu|].
           destruct (Nat.eq_dec k (nr_vars g)) as [->|Nk']; [now rewrite HVn|]. rewrite HV by lia. now apply S5.
        -- unfold var. rewrite nth_overflow by exact Lk'. reflexivity.
    + lia.
    + split; [exact S'|]. split; [exact V'|]. split; [cbn [length]; lia|congruence].
Qed.
Lemma parts_mone x : parts d K x -> parts d K (x * - (1)).
Proof using. intros H. replace (x * - (1)) with (- x) by ring. now apply parts_opp. Qed.
Lemma flip_size n t g g' j : general_ok g -> (j < nr_vars g)%nat -> flip_one g j = Ok g' -> stage n t g -> raw (var g j) ->
  stage n t g' /\ raw (var g' j) /\ g_rows g' = g_rows g.
Proof using.
  intros P Lj E S V. destruct (flip_one_corr g j Lj P) as (g0 & E0 & HV & _). rewrite E in E0. injection E0 as <-.
  unfold flip_one in E. rewrite (index_nth _ _ no_variable) in E by exact Lj. cbn [bind] in E. fold (var g j) in E.
  destruct (v_lower (var g j)) as [a|] eqn:El; [injection E as <-; auto|]. destruct (v_upper (var g j)) as [u|] eqn:Eu; [|injection E as <-; auto].
  assert (Lc : (j < length (g_cols g))%nat) by now rewrite (gok_cols _ P).
  rewrite set_index_upd in E by exact Lj. cbn [bind] in E. rewrite (index_nth _ _ []) in E by exact Lc. cbn [bind] in E.
  rewrite set_index_upd in E by exact Lc. cbn [bind] in E. injection E as E.
  assert (Vj : var g' j = mk_var (v_integer (var g j)) (v_cost (var g j) * - (1)) (Some (- u)) None (v_shift (var g j) * - (1)) (negb (v_flipped (var g j)))).
  { subst g'. unfold var at 1. cbn [g_vars]. now apply nth_upd_same. }
  destruct V as [V1 V2 V3 V4]. destruct S as [S1 S2 S3 S4 S5]. split; [|split; [|now subst g']].
  - constructor; try (subst g'; assumption).
    + intros i k. unfold coefficient. subst g'. cbn [g_cols]. destruct (Nat.eq_dec k j) as [->|Nk].
      * rewrite nth_upd_same by assumption. rewrite den_smul. apply parts_mone. apply (S2 i j).
      * rewrite nth_upd_other by assumption. apply S2.
    + intros k Lk. destruct (Nat.eq_dec k j) as [->|Nk]; [now rewrite Vj|]. rewrite HV by assumption. now apply S5.
  - rewrite Vj. constructor; cbn; [now apply parts_mone| |congruence|rewrite V4; ring]. intros l [= <-]. apply parts_opp. now apply V3.
Qed.
Lemma shift_size n t g g' j a : general_ok g -> (j < nr_vars g)%nat -> v_lower (var g j) = Some a -> shift_one g j = Ok g' -> stage n t g -> raw (var g j) ->
  stage n (S t) g' /\ sized (var g' j) /\ g_rows g' = g_rows g.
Proof using KD.
  intros P Lj El E S V. destruct (shift_one_corr g j a Lj P El) as (g0 & E0 & HV & _). rewrite E in E0. injection E0 as <-.
  unfold shift_one in E. rewrite (index_nth _ _ no_variable) in E by exact Lj. cbn [bind] in E. fold (var g j) in E. rewrite El in E.
  assert (Lc : (j < length (g_cols g))%nat) by now rewrite (gok_cols _ P).
  rewrite (index_nth _ _ []) in E by exact Lc. cbn [bind] in E.
  destruct (shift_fold a (g_rows g) (nth j (g_cols g) []) 0 (g_b g) (gok_sorted _ P j Lj) (gok_b _ P)) as (b' & Eb & Lb & Nb).
  rewrite Eb in E. cbn [bind] in E. rewrite set_index_upd in E by exact Lj. cbn [bind] in E. injection E as E.
  assert (Vj : var g' j = mk_var (v_integer (var g j)) (v_cost (var g j)) (Some 0)
     (match v_upper (var g j) with Some u => Some (u - a) | None => None end) (v_shift (var g j) - a) (v_flipped (var g j))).
  { subst g'. unfold var at 1. cbn [g_vars]. now apply nth_upd_same. }
  destruct V as [V1 V2 V3 V4]. specialize (V2 a El). destruct S as [S1 S2 S3 S4 S5]. split; [|split; [|now subst g']].
  - constructor.
    + subst g'. cbn [g_fixed]. rewrite level_S. apply parts_add; [exact S1|]. now apply parts_mul.
    + subst g'. exact S2.
    + intros i Li. replace (g_rows g') with (g_rows g) in Li by now subst g'. replace (g_b g') with b' by now subst g'. rewrite Nb by assumption. rewrite level_S.
      apply parts_sub; [now apply S3|]. apply parts_mul; [exact V2|]. apply S2.
    + subst g'. exact S4.
    + intros k Lk. destruct (Nat.eq_dec k j) as [->|Nk]; [|rewrite HV by assumption; now apply S5]. rewrite Vj. cbn [v_upper]. now rewrite (S5 j Lk).
  - rewrite Vj. constructor; cbn [v_cost v_upper v_shift]; [exact V1| |].
    + intros u0. destruct (v_upper (var g j)) as [u|]; [|congruence]. intros [= <-]. replace (2 * K)%Z with (K + K)%Z by ring. apply parts_sub; [now apply V3|exact V2].
    + rewrite V4. replace (0 - a) with (- a) by ring. now apply parts_opp.
Qed.
Lemma raw_sized v : raw v -> sized v.
Proof using KD.
  intros [A B C D]. constructor; [exact A| |rewrite D; apply parts_0; lia]. intros u Hu. apply parts_le with K; [lia|]. now apply C.
Qed.
Lemma transform_fold_size n : forall l g g' t, general_ok g -> NoDup l -> (forall j, In j l -> (j < nr_vars g)%nat /\ ~ freev (var g j)) -> stage n t g ->
  (forall j, In j l -> raw (var g j)) -> (forall j, (j < nr_vars g)%nat -> ~ In j l -> sized (var g j)) -> foldM transform_one l g = Ok g' ->
  stage n (t + length l) g' /\ (forall j, (j < nr_vars g')%nat -> sized (var g' j)) /\ g_rows g' = g_rows g /\ nr_vars g' = nr_vars g.
Proof using KD.
  induction l as [|j l IH]; intros g g' t P ND H S V Z E; cbn [foldM] in E.
  - injection E as <-. cbn [length]. rewrite Nat.add_0_r. split; [exact S|]. split; [|split; reflexivity]. intros j Lj. apply Z; auto.
  - inversion ND as [|x y Nj ND']; subst x y. destruct (H j (or_introl eq_refl)) as [Lj Fj]. unfold transform_one at 1 in E.
    destruct (flip_one_corr g j Lj P) as (g1 & E1 & O1 & N1 & P1 & Low & _). destruct (Low Fj) as [a El]. rewrite E1 in E. cbn [bind] in E.
    destruct (flip_size n t g g1 j P Lj E1 S (V j (or_introl eq_refl))) as (S1 & V1 & R1).
    assert (Lj1 : (j < nr_vars g1)%nat) by lia.
    destruct (shift_one_corr g1 j a Lj1 P1 El) as (g2 & E2 & O2 & N2 & P2 & _). rewrite E2 in E. cbn [bind] in E.
    destruct (shift_size n t g1 g2 j a P1 Lj1 El E2 S1 V1) as (S2 & V2 & R2).
    destruct (IH g2 g' (Datatypes.S t)) as (S3 & V3 & R3 & N3); auto.
    + intros k Hk. assert (k <> j) by congruence. destruct (H k (or_intror Hk)) as [Lk Fk]. rewrite O2, O1 by assumption. split; [lia|assumption].
    + intros k Hk. assert (k <> j) by congruence. rewrite O2, O1 by assumption. apply V. now right.
    + intros k Lk Nk. destruct (Nat.eq_dec k j) as [->|Nkj]; [exact V2|]. rewrite O2, O1 by assumption. apply Z; [lia|]. intros [?|?]; congruence.
    + cbn [length]. rewrite Nat.add_succ_r. split; [exact S3|]. split; [exact V3|]. split; [congruence|lia].
Qed.
Lemma split_free_size g g1 : general_ok g -> fresh g -> gdata_size d K g -> split_free g = Ok g1 ->
  stage (nr_vars g) 0 g1 /\ (forall j, (j < nr_vars g1)%nat -> raw (var g1 j)) /\ (nr_vars g1 <= 2 * nr_vars g)%nat /\ g_rows g1 = g_rows g.
Proof using KD.
  intros P FR Z E. unfold split_free in E.
  rewrite (filterM_ok _ (fun j => is_free (var g j))) in E.
  2:{ intros j Hj. apply In_range in Hj. rewrite (index_nth _ _ no_variable); [reflexivity|].
      rewrite (gok_cols _ P) in Hj. unfold nr_vars in Hj. lia. }
  cbn [bind] in E. set (dup := filter _ _) in E.
  assert (Hdup : forall j, In j dup <-> (j < nr_vars g)%nat /\ freev (var g j)).
  { intros j. unfold dup. rewrite filter_In, In_range, is_free_iff, (gok_cols _ P). intuition lia. }
  rewrite (mapM_map _ (fun j => snegate (nth j (g_cols g) []))) in E.
  2:{ intros j Hj. apply Hdup in Hj. rewrite (index_nth _ _ []); [reflexivity|]. rewrite (gok_cols _ P). tauto. }
  cbn [bind] in E. set (g0 := mk_general _ _ _ _ _ _ _ _ _) in E.
  assert (CN : forall j, nth j (g_cols g0) [] = nth j (g_cols g) [] \/ nth j (g_cols g0) [] = [] \/
     exists k, In k dup /\ nth j (g_cols g0) [] = snegate (nth k (g_cols g) [])).
  { intros j. cbn [g_cols g0]. destruct (Nat.lt_ge_cases j (length (g_cols g))) as [L|L]; [left; now apply nth_app_l|right].
    rewrite app_nth2 by assumption. set (q := (j - length (g_cols g))%nat). set (f := fun j => snegate (nth j (g_cols g) [])).
    destruct (Nat.lt_ge_cases q (length dup)) as [Lq|Lq]; [right|left; apply nth_overflow; now rewrite map_length].
    exists (nth q dup 0%nat). split; [now apply nth_In|]. rewrite (nth_indep _ [] (f 0%nat)) by now rewrite map_length. now rewrite map_nth. }
  assert (P1 : gpre dup g0).
  { destruct P as [PC PF PT PB PS PR PD PA PSp PFr]. constructor; try assumption.
    - cbn [g_cols g0]. rewrite app_length, map_length. now rewrite PC.
    - intros j Lj. destruct (CN j) as [->|[->|(k & Hk & ->)]].
      + destruct (Nat.lt_ge_cases j (length (g_cols g))) as [L|L]; [apply PS; now rewrite <- PC|]. rewrite nth_overflow by assumption. exact I.
      + exact I.
      + apply fwf_snegate. apply PS. now apply Hdup.
    - split; [|exact Hdup]. unfold dup. apply NoDup_filter. apply seq_NoDup.
    - intros j Hj. apply Hdup in Hj. destruct Hj as [Lj [A B]]. exact (PFr j Lj A B).
    - intros t Lt. cbn [g_cols g0]. change (nr_vars g0) with (nr_vars g). rewrite <- PC. rewrite app_nth2 by lia.
      replace (length (g_cols g) + t - length (g_cols g))%nat with t by lia. set (f := fun j => snegate (nth j (g_cols g) [])).
      rewrite (nth_indep _ [] (f 0%nat)) by (rewrite map_length; lia). rewrite map_nth. unfold f.
      rewrite nth_app_l; [reflexivity|]. rewrite PC. apply Hdup. apply nth_In. lia. }
  assert (L0 : (Zpos d * K + 0 * (K * K))%Z = (K * Zpos d)%Z) by ring.
  assert (LV : level 0 = (K * Zpos d)%Z) by (unfold level; cbn; ring).
  assert (C0 : forall i j, parts d K (coefficient g i j)).
  { intros i j. destruct (Nat.lt_ge_cases j (nr_vars g)) as [L|L]; [now apply (gz_cols _ _ _ Z)|]. unfold coefficient.
    rewrite nth_overflow by now rewrite (gok_cols _ P). apply parts_0. lia. }
  assert (S0 : stage (nr_vars g) 0 g0).
  { constructor.
    - rewrite LV. apply parts_finer. exact (gz_fixed _ _ _ Z).
    - intros i j. unfold coefficient. destruct (CN j) as [->|[->|(k & Hk & ->)]]; [apply (C0 i j)|apply parts_0; lia|].
      rewrite den_snegate. apply parts_opp. apply (C0 i k).
    - intros i Li. rewrite LV. apply parts_finer. now apply (gz_b _ _ _ Z).
    - exact (gz_range _ _ _ Z).
    - intros j Lj. unfold var. rewrite nth_overflow by exact Lj. reflexivity. }
  destruct (split_fold_size (nr_vars g) dup g0 g1 P1 S0) as (S1 & V1 & N1 & R1); try assumption; [apply Nat.le_refl| |].
  - intros j Lj. constructor; try exact (proj1 (proj1 (proj2 (proj2 FR)) j Lj)).
    + now apply (gz_cost _ _ _ Z).
    + intros l. now apply (gz_lower _ _ _ Z).
    + intros l. now apply (gz_upper _ _ _ Z).
  - split; [exact S1|]. split; [exact V1|]. split; [|exact R1]. rewrite N1. change (nr_vars g0) with (nr_vars g).
    assert (length dup <= nr_vars g)%nat; [|lia]. unfold dup. eapply Nat.le_trans; [apply filter_short|]. unfold range. rewrite seq_length, (gok_cols _ P). lia.
Qed.

(** the numbers of the standardized program of a program with [n] variables *)
Record final (n : nat) (L : Z) (g : general) : Prop := mk_final {
  fl_fixed : parts (d * d) L (g_fixed g);
  fl_cols : forall i j, parts d K (coefficient g i j);
  fl_b : forall i, (i < g_rows g)%nat -> parts (d * d) L (nthq (g_b g) i);
  fl_range : forall i r, row_type g i = Range r -> parts d K r;
  fl_new : forall j, (n <= j)%nat -> v_upper (var g j) = None;
  fl_vars : forall j, (j < nr_vars g)%nat -> sized (var g j)
}.
Lemma make_b_size n t g g' : general_ok g -> stage n t g -> (forall j, (j < nr_vars g)%nat -> sized (var g j)) -> make_b_non_negative g = Ok g' ->
  final n (level t + K * Zpos d) g' /\ g_rows g' = g_rows g /\ nr_vars g' = nr_vars g.
Proof using KD.
  intros P S V E. unfold make_b_non_negative in E. set (rows := map fst _) in E.
  assert (HR : forall i, In i rows -> (i < g_rows g)%nat).
  { intros i. unfold rows. rewrite in_map_iff. intros ([i' v] & Ei & H). cbn in Ei. subst i'. apply filter_In in H. destruct H as [H Hv]. apply In_number_from in H.
    rewrite Nat.sub_0_r in H. destruct H as [_ H]. rewrite <- (gok_b _ P). apply nth_error_Some. congruence. }
  assert (ND : NoDup rows).
  { unfold rows. apply NoDup_map_filter. rewrite number_from_fst. apply seq_NoDup. }
  destruct (negate_fold rows (g_types g) (g_b g) ND) as (types' & b' & E' & L1 & L2 & H).
  { intros i Hi. apply HR in Hi. rewrite (gok_types _ P), (gok_b _ P). tauto. }
  rewrite E' in E. cbn [bind fst snd] in E. injection E as <-. destruct S as [S1 S2 S3 S4 S5].
  assert (LK : (0 <= K * Zpos d)%Z) by nia.
  split; [|split; reflexivity]. constructor.
  - cbn [g_fixed]. apply parts_le with (level t); [lia|exact S1].
  - intros i j. unfold coefficient. cbn [g_cols]. unfold change_row_signs.
    set (f := map (fun '(k, v) => (k, if memb k rows then v * - (1) else v))).
    destruct (Nat.lt_ge_cases j (length (g_cols g))) as [Lj|Lj].
    + rewrite (nth_indep _ [] (f [])) by now rewrite map_length. rewrite map_nth. unfold f. rewrite den_sign. destruct (memb i rows); [apply parts_opp|]; apply (S2 i j).
    + rewrite nth_overflow by now rewrite map_length. apply parts_0. lia.
  - intros i Li. cbn [g_rows g_b] in *. destruct (in_dec Nat.eq_dec i rows) as [Hi|Hi].
    + destruct (proj1 (H i) Hi) as [_ ->]. unfold neg_b. destruct (nth i (g_types g) Equal) as [|r| |] eqn:Et.
      1,3,4: apply parts_le with (level t); [lia|]; replace (nthq (g_b g) i * - (1)) with (- nthq (g_b g) i) by ring; apply parts_opp; now apply S3.
      rewrite Z.add_comm. apply parts_sub; [|now apply S3]. apply parts_finer. now apply (S4 i).
    + destruct (proj2 (H i) Hi) as [_ ->]. apply parts_le with (level t); [lia|now apply S3].
  - intros i r. unfold row_type. cbn [g_types]. destruct (in_dec Nat.eq_dec i rows) as [Hi|Hi].
    + destruct (proj1 (H i) Hi) as [-> _]. intros Et. apply (S4 i). unfold row_type. destruct (nth i (g_types g) Equal); cbn in Et; congruence.
    + destruct (proj2 (H i) Hi) as [-> _]. apply (S4 i).
  - exact S5.
  - exact V.
Qed.
Lemma min_size n L g : final n L g -> final n L (make_minimization g) /\ g_rows (make_minimization g) = g_rows g /\ nr_vars (make_minimization g) = nr_vars g.
Proof using.
  intros F. pose proof (min_facts g) as M. cbv zeta in M. destruct M as (_ & MN & MV & _ & _ & MR & _). split; [|split; assumption].
  unfold make_minimization in *. destruct (g_objective g); [exact F|]. destruct F as [F1 F2 F3 F4 F5 F6]. constructor; try assumption.
  - intros j Lj. rewrite (proj2 (MV j)). now apply F5.
  - intros j Lj. rewrite MN in Lj. unfold var. cbn [g_vars]. rewrite (nth_indep _ no_variable (negate_cost no_variable)) by (rewrite map_length; exact Lj).
    rewrite map_nth. destruct (F6 j Lj) as [A B C]. unfold var in A, B, C. constructor; cbn [v_cost v_upper v_shift negate_cost]; auto. now apply parts_mone.
Qed.
Lemma reorder_size n L g g' c : general_ok g -> final n L g -> reorder g = Ok (g', c) ->
  final n L g' /\ g_rows g' = g_rows g /\ nr_vars g' = nr_vars g.
Proof using KD.
  intros P F E. destruct (reorder_corr g P) as (g0 & c0 & E0 & P' & HV & HF & _ & H & _ & HR). rewrite E in E0. injection E0 as <- <-.
  assert (DS : forall p, (p < g_rows g)%nat -> exists i, (i < g_rows g)%nat /\ dst (g_types g) i = p).
  { intros p Lp. rewrite <- (gok_types _ P) in *. now apply dst_surj. }
  assert (N : nr_vars g' = nr_vars g) by (unfold nr_vars; now rewrite HV).
  destruct F as [F1 F2 F3 F4 F5 F6]. split; [|split; assumption]. constructor.
  - now rewrite HF.
  - intros i j. destruct (Nat.lt_ge_cases j (nr_vars g)) as [Lj|Lj].
    2:{ unfold coefficient. rewrite nth_overflow by (rewrite (gok_cols _ P'); lia). apply parts_0. lia. }
    destruct (Nat.lt_ge_cases i (g_rows g)) as [Li|Li].
    2:{ unfold coefficient. rewrite (den_above 0 (g_rows g')); [apply parts_0; lia|apply (gok_sorted _ P'); lia|lia]. }
    destruct (DS i Li) as (i0 & L0 & <-). destruct (H i0 L0) as (_ & _ & _ & RV). specialize (RV (fun k => if Nat.eqb k j then 1 else 0)).
    assert (U : forall h, nr_vars h = nr_vars g -> forall i, row_value h (fun k => if Nat.eqb k j then 1 else 0) i = coefficient h i j).
    { intros h Nh i. unfold row_value. rewrite (sum_split _ j) by lia. rewrite Nat.eqb_refl, sum_zero; [ring|]. intros k _. destruct (Nat.eqb k j); ring. }
    rewrite !U in RV by auto. rewrite RV. apply F2.
  - intros i Li. rewrite HR in Li. destruct (DS i Li) as (i0 & L0 & <-). destruct (H i0 L0) as (_ & _ & -> & _). now apply F3.
  - intros i r Er. destruct (Nat.lt_ge_cases i (g_rows g)) as [Li|Li].
    + destruct (DS i Li) as (i0 & L0 & <-). destruct (H i0 L0) as (_ & T & _). rewrite T in Er. now apply (F4 i0).
    + unfold row_type in Er. rewrite nth_overflow in Er by (rewrite (gok_types _ P'); lia). discriminate.
  - intros j Lj. unfold var. rewrite HV. now apply F5.
  - intros j Lj. unfold var. rewrite HV. apply F6. lia.
Qed.
Lemma final_le n L L' g : (L <= L')%Z -> final n L g -> final n L' g.
Proof using. intros H [F1 F2 F3 F4 F5 F6]. constructor; auto; [now apply parts_le with L|]. intros i Li. apply parts_le with L; auto. Qed.
Lemma standardize_size g g' c : general_ok g -> fresh g -> gdata_size d K g -> standardize g = Ok (g', c) ->
  final (nr_vars g) (standard_size g K) g' /\ g_rows g' = g_rows g /\ (nr_vars g' <= 2 * nr_vars g)%nat.
Proof using KD.
  intros P FR Z E. unfold standardize in E. destruct (transform_corr g P) as (g1 & E1 & P1 & _). rewrite E1 in E. cbn [bind] in E.
  destruct (make_b_corr g1 P1) as (g2 & E2 & P2 & _). rewrite E2 in E. cbn [bind] in E.
  unfold transform_variables in E1. destruct (split_free_corr g P) as (g0 & E0 & [P0 B0] & _). rewrite E0 in E1. cbn [bind] in E1.
  destruct (split_free_size g g0 P FR Z E0) as (S0 & V0 & N0 & R0).
  destruct (transform_fold_size (nr_vars g) (range 0 (length (g_vars g0))) g0 g1 0 P0) as (S1 & V1 & R1 & N1); try assumption.
  { apply seq_NoDup. }
  { intros j Hj. apply In_range in Hj. split; [unfold nr_vars; lia|]. apply B0. unfold nr_vars; lia. }
  { intros j Hj. apply In_range in Hj. apply V0. unfold nr_vars. lia. }
  { intros j Lj Nj. exfalso. apply Nj. apply In_range. unfold nr_vars in Lj. lia. }
  destruct (make_b_size (nr_vars g) _ g1 g2 P1 S1 V1 E2) as (F2 & R2 & N2).
  destruct (min_size _ _ g2 F2) as (F3 & R3 & N3). pose proof (min_facts g2) as M. cbv zeta in M. destruct M as (_ & _ & _ & _ & _ & _ & MP & _).
  destruct (reorder_size _ _ _ g' c (MP P2) F3 E) as (F4 & R4 & N4). split; [|split; [congruence|lia]].
  apply (final_le _ _ _ _) with (2 := F4). unfold level, standard_size. assert (LR : length (range 0 (length (g_vars g0))) = nr_vars g0) by (unfold range, nr_vars; rewrite seq_length; lia).
  rewrite LR. cbn [Nat.add]. assert (Q : (Z.of_nat (nr_vars g0) <= 2 * Z.of_nat (nr_vars g))%Z) by lia. assert (0 <= K * K)%Z by nia. nia.
Qed.

(** ** The program that is given to the solver *)
Section Derived.
Variables (n : nat) (L : Z) (g : general) (c : counts) (md : matrix_data).
Hypothesis (P : general_ok g) (SH : standard_shape g c) (D : derived g c md) (F : final n L g).
Hypothesis HL : (2 * (K * K) <= L)%Z.
Lemma fine x B : (B <= 2 * K)%Z -> parts d B x -> parts (d * d) L x.
Proof using KD HL. intros LB H. pose proof (parts_nonneg _ _ _ H). apply parts_le with (B * Zpos d)%Z; [nia|now apply parts_finer]. Qed.
Lemma unit_parts (b : bool) : parts d K (if b then 1 else 0).
Proof using KD. destruct b; [now apply parts_1|apply parts_0; lia]. Qed.
Lemma one_entry a v i : v = 1 \/ v = - (1) -> parts d K (den [(a, v)] i).
Proof using KD.
  intros V. cbn [den]. replace ((if Nat.eqb i a then v else 0) + 0) with (if Nat.eqb i a then v else 0) by ring.
  destruct (Nat.eqb i a); [|apply parts_0; lia]. destruct V as [->| ->]; [|apply parts_opp]; now apply parts_1.
Qed.
Lemma provider_size : data_size (d * d) L (md_provider md).
Proof using KD P SH D F HL.
  assert (K2 : (K + K = 2 * K)%Z) by ring. constructor.
  - rewrite Pos2Z.inj_mul. nia.
  - intros i j _ Lj. revert j Lj. apply (col_cases g c md D (fun j => parts (d * d) L (den (p_col (md_provider md) j) i))).
    + intros j Lj. rewrite (col_normal g c md SH D) by assumption. rewrite den_app. apply (fine _ (K + K)); [lia|]. apply parts_add; [apply (fl_cols _ _ _ F)|].
      unfold bound_entry. destruct (nth j (md_to_bound md) None); [apply one_entry; now left|apply parts_0; lia].
    + intros k Lk. rewrite (col_range g c md D) by assumption. apply (fine _ (K + K)); [lia|].
      change (parts d (K + K) (den ([((n_equal c + k)%nat, 1)] ++ [((n_equal c + n_range c + n_less c + n_greater c + length (md_bounds md) + k)%nat, 1)]) i)).
      rewrite den_app. apply parts_add; apply one_entry; now left.
    + intros k Lk. rewrite (col_upper g c md D) by assumption. apply (fine _ K); [lia|]. apply one_entry. now left.
    + intros k Lk. rewrite (col_lower g c md D) by assumption. apply (fine _ K); [lia|]. apply one_entry. now right.
    + intros k Lk. rewrite (col_bound g c md D) by assumption. apply (fine _ K); [lia|]. apply one_entry. now left.
    + intros k Lk. rewrite (col_slack g c md D) by assumption. apply (fine _ K); [lia|]. apply one_entry. now left.
  - assert (B : forall i, (i < g_rows g)%nat -> parts (d * d) L (nthq (p_rhs (md_provider md)) i)).
    { intros i Li. rewrite (rhs_constraint g c md P D) by assumption. now apply (fl_b _ _ _ F). }
    pose proof (ss_rows _ _ SH) as R. apply (row_cases g c md D (fun i => parts (d * d) L (nthq (p_rhs (md_provider md)) i))); try (intros; apply B; lia).
    + intros k Lk. rewrite (rhs_upper g c md P SH D) by assumption. destruct (bound_lt g c md D k Lk) as [Lb Hb].
      apply (fine _ (2 * K)); [lia|]. exact (sz_upper _ (fl_vars _ _ _ F _ Lb) _ Hb).
    + intros k Lk. rewrite (rhs_slack g c md P SH D) by assumption. apply (fine _ K); [lia|]. exact (fl_range _ _ _ F _ _ (dv_range _ _ _ D k Lk)).
  - intros j _. cbn. unfold md_cost. destruct (classify md j) as [[] k]; try (apply (fine _ K); [lia|apply parts_0; lia]).
    destruct (nth_error (md_vars md) k) as [v|] eqn:E; [|apply (fine _ K); [lia|apply parts_0; lia]]. rewrite (dv_vars _ _ _ D) in E.
    assert (Lk : (k < nr_vars g)%nat) by (apply nth_error_Some; congruence). apply (fine _ K); [lia|].
    pose proof (sz_cost _ (fl_vars _ _ _ F k Lk)) as C. unfold var in C. now rewrite (nth_error_nth _ _ _ E) in C.
Qed.
Lemma provider_rows : (p_rows (md_provider md) <= 2 * g_rows g + n)%nat.
Proof using SH D F.
  rewrite (r_total g c md D), (ss_rows _ _ SH). assert (length (md_bounds md) <= n)%nat; [|lia].
  rewrite <- (seq_length n 0). apply NoDup_incl_length; [exact (increasing_NoDup _ _ (dv_inc _ _ _ D))|].
  intros j Hj. apply (dv_upper _ _ _ D) in Hj. destruct Hj as [_ [u Hu]]. apply in_seq.
  destruct (Nat.lt_ge_cases j n) as [Lj|Lj]; [lia|]. rewrite (fl_new _ _ _ F j Lj) in Hu. discriminate.
Qed.
End Derived.
End Sizes.

(** ** Values of a solution have a common denominator *)
Lemma run_fractions d K r n fuel p x : provider_ok p -> data_size d K p -> run r n fuel p = Ok (FiniteOptimum x) ->
  exists D : Z, D <> 0%Z /\ (Z.abs D <= det_bound (p_rows p) K)%Z /\ forall j, zsmall (det_bound (p_rows p) K) (den x j * zq_of D).
Proof.
  intros Pok DS E. destruct (solve_end (ops r) (rule n (ops r)) fuel p _ E) as (p' & k & t & s & H & _ & ->).
  destruct (reach_consistent (ops r) (laws r) _ (rule_laws n (ops r) (laws r)) p PhaseTwo p' k t (Some s) Pok H) as (N & CS).
  destruct (reach_reach_inv (ops r) (laws r) _ (rule_laws n (ops r) (laws r)) p PhaseTwo p' k t (Some s) Pok H) as (Kok & HI & _ & _).
  destruct (reach_fractions d K (ops r) (laws r) _ (rule_laws n (ops r) (laws r)) p PhaseTwo p' k t (Some s) Pok DS H N CS) as (D & D0 & DM & _ & F2 & _).
  exists D. split; [exact D0|]. split; [exact DM|]. intros j. pose proof (ds_one _ _ _ DS).
  destruct (Qc_eq_dec (den (current_bfs t) j) 0) as [->|NZ].
  - exists 0%Z. split; [change (zq_of 0) with 0; ring|]. pose proof (det_bound_pos (p_rows p) K). lia.
  - destruct (den_nonzero_In _ _ NZ) as (v & Hin). pose proof (current_bfs_wfs (ops r) (laws r) k (rhs_of p') t HI) as W. apply (proj1 (den_In_iff _ _ _ _ W)) in Hin as Ev. rewrite (proj1 Ev).
    unfold current_bfs, carry_bfs in Hin. apply sort_by_In in Hin. apply filter_In in Hin. destruct Hin as [Hin _].
    apply in_combine_r in Hin. destruct (In_nth _ _ 0 Hin) as (i & Li & Ei). rewrite <- Ei. apply F2. rewrite <- (ci_lb _ _ _ _ _ (proj1 HI)). exact Li.
Qed.
Lemma det_bound_mono m m' K K' : (1 <= K)%Z -> (K <= K')%Z -> (m <= m')%nat -> (det_bound m K <= det_bound m' K')%Z.
Proof.
  intros K1 KK L. apply Z.le_trans with (det_bound m K'); [|apply det_bound_le; lia]. unfold det_bound. pose proof (zfact_pos m).
  apply Z.mul_le_mono_nonneg_l; [lia|]. apply Z.pow_le_mono_l. lia.
Qed.
Lemma zq_small B z : (Z.abs z <= B)%Z -> zsmall B (zq_of z).
Proof. intros L. now exists z. Qed.

Lemma general_sizes d K r n fuel g s : general_ok g -> fresh g -> gdata_size d K g -> solve_general r n fuel g = Ok (Solved_to s) ->
  (forall name v, In (name, v) (s_values s) -> size_at_most (4 * (K * general_bound g K)) v) /\
  size_at_most ((4 * Z.of_nat (nr_vars g) + 2) * (K * K * general_bound g K)) (s_objective s).
Proof.
  intros P FR Z E. pose proof (gz_one _ _ _ Z) as KD. unfold solve_general in E. destruct (standardize_spec g P) as (g' & c & FF & GG & ES & P' & SH & ST).
  rewrite ES in E. cbn [bind fst snd] in E. destruct (derive_spec g' c P' SH) as (md & ED & D). rewrite ED in E. cbn [bind] in E.
  pose proof (md_provider_ok g' c md P' SH D) as PO.
  destruct (run r n fuel (md_provider md)) as [[|z|]| |] eqn:ER; cbn [bind] in E; try discriminate.
  destruct (full_solution fuel g' (reconstruct md z)) as [s'| |] eqn:EF; cbn [bind] in E; try discriminate. injection E as ->.
  destruct (run_optimum r n fuel _ z PO ER) as [_ W]. destruct (reconstruct_spec g' c md P' D z W) as [W' R].
  destruct (full_solution_spec _ _ _ _ P' W' EF) as (val & C & V & SO).
  destruct (standardize_size d K KD g g' c P FR Z ES) as (F & HR & HN).
  assert (HL : (2 * (K * K) <= standard_size g K)%Z) by (unfold standard_size; nia).
  pose proof (provider_size d K KD _ _ g' c md P' SH D F HL) as DS. pose proof (provider_rows d K _ _ g' c md SH D F) as PR.
  destruct (run_fractions _ _ r n fuel _ z PO DS ER) as (e & E0 & EM & X). set (x := den (reconstruct md z)) in *.
  assert (MM : (det_bound (p_rows (md_provider md)) (standard_size g K) <= general_bound g K)%Z).
  { unfold general_bound. rewrite HR in PR. apply det_bound_le; [nia|exact PR]. }
  set (M := general_bound g K) in *.
  assert (M1 : (1 <= M)%Z) by (unfold M, general_bound; apply det_bound_pos; nia).
  assert (X' : forall j, (j < nr_vars g')%nat -> zsmall M (x j * zq_of e)).
  { intros j Lj. rewrite R by assumption. eapply zsmall_le; [exact MM|apply X]. }
  assert (KM : (0 <= K * M)%Z) by nia. assert (EM' : (Z.abs e <= M)%Z) by lia.
  assert (OV : forall j, (j < nr_vars g')%nat -> zsmall (2 * (K * M)) (own_value (var g' j) (x j) * zq_of (Zpos d * e))).
  { intros j Lj. assert (Q : zsmall (2 * (K * M)) ((x j - v_shift (var g' j)) * zq_of (Zpos d * e))).
    { rewrite zq_mul. replace ((x j - v_shift (var g' j)) * (zq_of (Zpos d) * zq_of e)) with (zq_of (Zpos d) * (x j * zq_of e) + - (v_shift (var g' j) * zq_of (Zpos d) * zq_of e)) by ring.
      replace (2 * (K * M))%Z with (K * M + K * M)%Z by ring. apply zsmall_add; [apply zsmall_mul; [apply zq_small; lia|now apply X']|].
      apply zsmall_opp. apply zsmall_mul; [|now apply zq_small]. apply parts_small. exact (sz_shift _ _ _ (fl_vars _ _ _ _ _ F j Lj)). }
    unfold own_value. destruct (v_flipped (var g' j)); [|exact Q].
    replace (- (x j - v_shift (var g' j)) * zq_of (Zpos d * e)) with (- ((x j - v_shift (var g' j)) * zq_of (Zpos d * e))) by ring. now apply zsmall_opp. }
  assert (DE : (Zpos d * e <> 0)%Z) by lia.
  assert (DB : (Z.abs (Zpos d * e) <= K * M)%Z) by (rewrite Z.abs_mul; apply Z.mul_le_mono_nonneg; lia).
  split.
  - intros name v Hin. rewrite V in Hin. apply in_combine_r in Hin. apply in_map_iff in Hin. destruct Hin as (o & <- & Ho). apply In_range in Ho.
    destruct (nth_error (g_orig g') o) as [[nm en]|] eqn:Eo; [|apply nth_error_None in Eo; lia]. rewrite (C o nm en Eo).
    apply (small_size _ _ (Zpos d * e)); [exact DE|lia|]. destruct en as [k|p q|rs]; cbn [entry_value].
    + destruct (gok_active _ P' o nm k Eo) as [Lk _]. apply zsmall_le with (2 * (K * M))%Z; [lia|now apply OV].
    + destruct (gok_split _ P' o nm p q Eo) as (Lp & Lq & _).
      match goal with |- zsmall _ ((?a - ?b) * ?f) => replace ((a - b) * f) with (a * f + - (b * f)) by ring end.
      replace (4 * (K * M))%Z with (2 * (K * M) + 2 * (K * M))%Z by ring. apply zsmall_add; [now apply OV|apply zsmall_opp; now apply OV].
    + exfalso. apply (sd_removed _ _ _ _ ST) in Eo. destruct FR as (LO & FA & _). assert (Lo : (o < nr_vars g)%nat) by (rewrite <- LO; apply nth_error_Some; congruence).
      destruct (FA o Lo) as [nm' E']. congruence.
  - rewrite SO. unfold gcost. apply (small_size _ _ (Zpos (d * d) * e)); [lia| |].
    { rewrite Z.abs_mul, Pos2Z.inj_mul. assert (Q : (Z.abs (Zpos d * Zpos d) * Z.abs e <= K * K * M)%Z) by (apply Z.mul_le_mono_nonneg; nia). assert (0 <= K * K * M)%Z by nia. nia. }
    rewrite Qcmult_plus_distr_l. apply zsmall_le with ((2 * Z.of_nat (nr_vars g) + 2) * (K * K) * M + Z.of_nat (nr_vars g') * (K * (K * M)))%Z.
    { assert (0 <= K * K * M)%Z by nia. assert (Q : (Z.of_nat (nr_vars g') <= 2 * Z.of_nat (nr_vars g))%Z) by lia. nia. }
    apply zsmall_add.
    + rewrite zq_mul, Qcmult_assoc. apply zsmall_mul; [|now apply zq_small]. apply parts_small. exact (fl_fixed _ _ _ _ _ F).
    + rewrite <- sum_scal_r. rewrite (sum_ext _ _ (fun j => (v_cost (var g' j) * zq_of (Zpos d)) * (zq_of (Zpos d) * (x j * zq_of e)))).
      2:{ intros j _. rewrite Pos2Z.inj_mul, !zq_mul. ring. }
      apply zsmall_sum. intros j Lj. apply zsmall_mul; [apply parts_small; exact (sz_cost _ _ _ (fl_vars _ _ _ _ _ F j Lj))|].
      apply zsmall_mul; [apply zq_small; lia|now apply X'].
Qed.
