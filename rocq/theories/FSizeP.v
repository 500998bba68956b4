(** * Sizes of numbers of files: proofs *)
From Verif Require Import SpecSize SpecGSize SpecFSize SizeP GSizeP SpecGeneral Pipeline.
From Verif Require Import ConvertP SpecMps BoundsP RangesP MpsP SpecParse SpecFile TextPipeline TextSolveP ArtP.
Local Open Scope Qc_scope.

Lemma den_single : forall (l : list (nat * Qc)) i, NoDup (map fst l) -> den l i = 0 \/ In (i, den l i) l.
Proof.
  induction l as [|[j v] l IH]; intros i ND; [now left|]. cbn [map fst] in ND. inversion ND as [|x y N ND']; subst x y. cbn [den].
  destruct (Nat.eqb_spec i j) as [->|Nij].
  - assert (Z : den l j = 0) by (destruct (Qc_eq_dec (den l j) 0) as [Z|NZ]; [exact Z|]; exfalso; destruct (den_nonzero_In _ _ NZ) as (w & Hw); apply N; exact (in_map fst _ _ Hw)).
    rewrite Z, Qcplus_0_r. right. now left.
  - rewrite Qcplus_0_l. destruct (IH i ND') as [H|H]; [now left|right; now right].
Qed.
Lemma parts_abs d K x : parts d K x -> parts d K (qabs x).
Proof. intros H. unfold qabs. destruct (qltb x 0); [now apply parts_opp|exact H]. Qed.

Lemma read_size d K f m g : fdata_size d K f -> describes m f -> to_general m = Got g -> gdata_size d (2 * K) g.
Proof.
  intros Z D E. pose proof (fz_one _ _ _ Z) as KD. pose proof (de_ok m f D) as OK.
  destruct (convert_got m OK g E) as (EO & EF & ER & EC & EN & NM & FR & NC & LT & LB & RR & VV).
  assert (W : forall x, parts d K x -> parts d (2 * K) x) by (intros x; apply parts_le; lia).
  assert (P0 : parts d K 0) by (apply parts_0; lia).
  assert (CE : forall c i v, In c (m_columns m) -> In (i, v) (col_values c) -> parts d K v).
  { intros c i v Hc Hv. apply (fz_coefficients _ _ _ Z (col_name c) (row_at m i)). apply (Permutation_in _ (de_coefficients m f D)).
    unfold said_coefficients. apply in_or_app. left. apply in_flat_map. exists c. split; [exact Hc|]. apply in_map_iff. exists (i, v). now split. }
  assert (KE : forall j v, In (j, v) (m_costs m) -> parts d K v).
  { intros j v Hv. apply (fz_coefficients _ _ _ Z (column_at m j) (m_cost_name m)). apply (Permutation_in _ (de_coefficients m f D)).
    unfold said_coefficients. apply in_or_app. right. apply in_map_iff. exists (j, v). now split. }
  assert (SV : forall l i v, In (i, v) (ungroup l) -> exists gn, In (gn, row_at m i, v) (said_values m l)).
  { intros l i v H. unfold ungroup in H. apply in_flat_map in H. destruct H as (gr & Hg & Hv). exists (grp_name gr). unfold said_values. apply in_flat_map. exists gr. split; [exact Hg|].
    apply in_map_iff. exists (i, v). now split. }
  assert (RE : forall i v, In (i, v) (ungroup (m_rhss m)) -> parts d K v).
  { intros i v H. destruct (SV _ _ _ H) as (gn & Hg). apply (Permutation_in _ (de_rhs m f D)) in Hg. exact (fz_rhs _ _ _ Z _ _ _ Hg). }
  assert (GE : forall i v, In (i, v) (ungroup (m_ranges m)) -> parts d K v).
  { intros i v H. destruct (SV _ _ _ H) as (gn & Hg). apply (Permutation_in _ (de_ranges m f D)) in Hg. exact (fz_ranges _ _ _ Z _ _ _ Hg). }
  assert (BE : forall j t v, stated m j t -> In t [LowerContinuous v; UpperContinuous v; Fixed v; LowerInteger v; UpperInteger v] -> parts d K v).
  { intros j t v H. unfold stated, ungroup in H. apply in_flat_map in H. destruct H as (gr & Hg & Hv). apply (fz_bounds _ _ _ Z t (grp_name gr) (column_at m j)).
    apply (Permutation_in _ (de_bounds m f D)). unfold said_bounds. apply in_flat_map. exists gr. split; [exact Hg|]. apply in_map_iff. exists (j, t). now split. }
  assert (VE : forall i v, In v (values_at i (ungroup (m_rhss m))) -> parts d K v) by (intros i v H; apply values_at_In in H; now apply (RE i)).
  assert (RW : forall i, (i < length (m_rows m))%nat -> parts d (2 * K) (nthq (g_b g) i) /\ forall r, row_type g i = Range r -> parts d K r).
  { intros i Li. destruct (RR i Li) as [(_ & -> & H)|(r & Hr & H)].
    - split.
      + apply W. destruct H as [[_ ->]|[[[_ H] N]|[[_ [H _]]|[_ [H _]]]]]; [exact P0| |now apply (VE i)|now apply (VE i)].
        destruct (values_at i (ungroup (m_rhss m))) as [|x l] eqn:Ev; [congruence|]. rewrite (H x (or_introl eq_refl)). apply (VE i). rewrite Ev. now left.
      + intros r Er. destruct (RangesP.kind_at (m_rows m) i); discriminate.
    - pose proof (GE i r Hr) as Pr. destruct H as [(_ & -> & ->)|[(_ & -> & N & H)|(_ & -> & N & H)]].
      + split; [now apply W|]. intros r' Er. destruct (qzero r); [discriminate|]. now injection Er as <-.
      + split; [|intros r' Er; discriminate]. destruct (values_at i (ungroup (m_rhss m))) as [|x l] eqn:Ev; [congruence|]. rewrite (H x (or_introl eq_refl)). apply W. apply (VE i). rewrite Ev. now left.
      + split; [|intros r' Er; injection Er as <-; now apply parts_abs]. destruct (values_at i (ungroup (m_rhss m))) as [|x l] eqn:Ev; [congruence|]. rewrite (H x (or_introl eq_refl)).
        assert (Px : parts d K x) by (apply (VE i); rewrite Ev; now left). unfold range_bound. replace (2 * K)%Z with (K + K)%Z by ring.
        assert (parts d (K + K) x) by (apply parts_le with K; [lia|exact Px]). assert (parts d (K + K) (x + qabs r)) by (apply parts_add; [exact Px|now apply parts_abs]).
        destruct (RangesP.kind_at (m_rows m) i); [assumption|destruct (qneg r); assumption|assumption]. }
  constructor.
  - lia.
  - rewrite EF. now apply W.
  - intros i j Lj. apply W. unfold coefficient. rewrite EC. rewrite EN in Lj. rewrite (nth_indep _ [] (col_values (mk_mcolumn "" false []))) by now rewrite map_length. rewrite map_nth.
    set (c := nth j (m_columns m) _). assert (Hc : In c (m_columns m)) by now apply nth_In.
    destruct (den_single (col_values c) i) as [->|H]; [exact (increasing_NoDup _ _ (proj1 (de_values m f D c Hc)))|exact P0|]. now apply (CE c i).
  - intros i Li. rewrite ER in Li. now apply RW.
  - intros i r Er. apply W. destruct (Nat.lt_ge_cases i (length (m_rows m))) as [Li|Li]; [now apply (RW i)|].
    unfold row_type in Er. rewrite nth_overflow in Er by lia. discriminate.
  - intros j Lj. apply W. rewrite EN in Lj. destruct (VV j _ (nth_error_nth' (m_columns m) (mk_mcolumn "" false []) Lj)) as (st & A & ->).
    destruct (fill_default_keeps st) as (_ & -> & _). rewrite (af_cost _ _ _ A). cbn [v_cost].
    destruct (den_single (m_costs m) j) as [->|H]; [exact (increasing_NoDup _ _ (mo_costs m OK))|exact P0|]. now apply (KE j).
  - intros j l Lj El. apply W. rewrite EN in Lj. destruct (converted_lower m g j l OK E Lj El) as [(t & T & Lt)|[-> _]]; [|exact P0].
    destruct t; cbn in Lt; try discriminate; try (injection Lt as <-); try exact P0; apply (BE j _ _ T); cbn; tauto.
  - intros j u Lj Eu. apply W. rewrite EN in Lj. destruct (converted_upper m g j u OK E Lj Eu) as (t & T & Lt).
    destruct t; cbn in Lt; try discriminate; try (injection Lt as <-); try exact P0; try (now apply parts_1); apply (BE j _ _ T); cbn; tauto.
Qed.
Lemma read_bound f m g K : describes m f -> to_general m = Got g -> general_bound g (2 * K) = file_bound f K.
Proof.
  intros D E. destruct (convert_got m (de_ok m f D) g E) as (_ & _ & ER & _ & EN & _). unfold general_bound, file_bound, standard_size. rewrite ER, EN.
  rewrite (Permutation_length (de_rows m f D)), <- (de_columns m f D), map_length. reflexivity.
Qed.
Lemma with_sizes d K parse f text r n fuel s : file_solvable f -> (exists m, parse text = Got m /\ describes m f) -> fdata_size d K f ->
  solve_with parse r n fuel text = Got (Ok (Solved_to s)) ->
  let M := file_bound f K in
  (forall c, In c (map fst (columns_of f)) -> size_at_most (8 * (K * M)) (answer_at s c)) /\
  size_at_most ((16 * Z.of_nat (length (columns_of f)) + 8) * (K * K * M)) (s_objective s).
Proof.
  intros FS T Z E. destruct (with_solved parse f text FS T) as (m & g & D & S & G & R). rewrite R in E. injection E as E.
  destruct (convert_solvable m g S G) as [OK FR]. pose proof (read_size d K f m g Z D G) as GZ. pose proof (fz_one _ _ _ Z) as KD.
  destruct (general_sizes d (2 * K) r n fuel g s OK FR GZ E) as [V O]. rewrite (read_bound f m g K D G) in V, O.
  destruct (convert_got m (de_ok m f D) g G) as (_ & _ & _ & _ & EN & _). intros M. split.
  - intros c _. unfold answer_at. destruct (find _ (s_values s)) as [[nm v]|] eqn:F.
    + apply find_some in F. replace (8 * (K * M))%Z with (4 * (2 * K * M))%Z by ring. apply (V nm v). tauto.
    + apply size_zero. assert (1 <= M)%Z by (apply det_bound_pos; nia). nia.
  - rewrite <- (de_columns m f D), map_length, <- EN. replace ((16 * Z.of_nat (nr_vars g) + 8) * (K * K * M))%Z with ((4 * Z.of_nat (nr_vars g) + 2) * (2 * K * (2 * K) * M))%Z by ring. exact O.
Qed.
