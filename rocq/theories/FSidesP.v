(** * Files with packing and covering programs: proofs *)
From Verif Require Import SpecGeneral SpecSides SpecFSides PackP Pipeline.
From Verif Require Import ConvertP SpecMps BoundsP RangesP MpsP MpsQ SpecParse SpecFile TextPresolve TextPresolveP TextSolveP ArtP FSizeP.
Local Open Scope Qc_scope.

Lemma den_unique : forall (l : list (nat * Qc)) i v, NoDup (map fst l) -> In (i, v) l -> den l i = v.
Proof.
  intros l i v ND H. destruct (den_single l i ND) as [Z|Z].
  - rewrite Z. revert ND H Z. induction l as [|[k w] l IH]; intros ND H Z; [destruct H|]. cbn [map fst] in ND. inversion ND as [|x y N ND']; subst x y. cbn [den] in Z. destruct H as [H|H].
    + injection H as -> ->. rewrite Nat.eqb_refl in Z. assert (Z' : den l i = 0) by (destruct (Qc_eq_dec (den l i) 0) as [Q|NZ]; [exact Q|]; exfalso; destruct (den_nonzero_In _ _ NZ) as (w & Hw); apply N; exact (in_map fst _ _ Hw)).
      rewrite Z' in Z. rewrite <- Z. ring.
    + destruct (Nat.eqb_spec i k) as [->|_]; [exfalso; apply N; exact (in_map fst _ _ H)|]. apply IH; [assumption|assumption|]. rewrite <- Z. ring.
  - exact (nodup_value l i _ _ ND Z H).
Qed.

Section Read.
Variable f : file.
Variable m : mps.
Variable g : general.
Hypothesis FS : file_solvable f.
Hypothesis D : describes m f.
Hypothesis E : to_general m = Got g.
Let OK : mps_ok m := de_ok m f D.
Let FR : file_rules f := fs_rules f FS.
Lemma read_rows : g_rows g = length (m_rows m). Proof using D E. now destruct (converted_sizes m g OK E). Qed.
Lemma read_vars : nr_vars g = length (m_columns m). Proof using D E. now destruct (converted_sizes m g OK E) as (_ & H & _). Qed.
Definition read_column (j : nat) : mcolumn := nth j (m_columns m) (mk_mcolumn "" false []).
Lemma read_coefficient i j : coefficient g i j = den (col_values (read_column j)) i.
Proof using D E.
  destruct (convert_got m OK g E) as (_ & _ & _ & EC & _). unfold coefficient. rewrite EC.
  destruct (Nat.lt_ge_cases j (length (m_columns m))) as [L|L].
  - rewrite (nth_indep _ [] (col_values (mk_mcolumn "" false []))) by now rewrite map_length. now rewrite map_nth.
  - unfold read_column. rewrite !nth_overflow; [reflexivity|assumption|now rewrite map_length].
Qed.
Lemma column_nodup j : (j < length (m_columns m))%nat -> NoDup (map fst (col_values (read_column j))).
Proof using D. intros L. exact (increasing_NoDup _ _ (proj1 (de_values m f D _ (nth_In _ _ L)))). Qed.
(** a coefficient of the program is one of the file *)
Lemma coefficient_said i j : (i < g_rows g)%nat -> (j < nr_vars g)%nat -> coefficient g i j <> 0 -> In (column_at m j, row_at m i, coefficient g i j) (coefficients f) /\ row_at m i <> cost_row f.
Proof using D E FS.
  intros Li Lj N. rewrite read_rows in Li. rewrite read_vars in Lj. rewrite read_coefficient in *. split.
  - destruct (den_single (col_values (read_column j)) i (column_nodup j Lj)) as [Z|H]; [now elim N|]. apply (Permutation_in _ (de_coefficients m f D)). unfold said_coefficients. apply in_or_app. left.
    apply in_flat_map. exists (read_column j). split; [now apply nth_In|]. apply in_map_iff. exists (i, den (col_values (read_column j)) i). now split.
  - rewrite (cost_row_name f m FR D). intros X. symmetry in X. now apply (cost_not_row f m FR D i Li).
Qed.
(** and the other way around *)
Lemma said_cases c r v : In (c, r, v) (coefficients f) ->
  (exists i j, (i < g_rows g)%nat /\ (j < nr_vars g)%nat /\ row_at m i = r /\ column_at m j = c /\ coefficient g i j = v) \/
  (r = cost_row f /\ exists j, (j < nr_vars g)%nat /\ column_at m j = c /\ v_cost (var g j) = v).
Proof using D E FS.
  intros H. apply (Permutation_in _ (Permutation_sym (de_coefficients m f D))) in H. unfold said_coefficients in H. apply in_app_or in H. destruct H as [H|H].
  - left. apply in_flat_map in H. destruct H as (col & Hc & H). apply in_map_iff in H. destruct H as ([i w] & EQ & H). injection EQ as E1 E2 E3. subst w.
    destruct (In_nth _ _ (mk_mcolumn "" false []) Hc) as (j & Lj & Ej). exists i, j. rewrite read_rows, read_vars. split; [now apply (proj2 (de_values m f D col Hc) i v)|]. split; [assumption|]. split; [assumption|].
    split; [unfold column_at; now rewrite Ej|]. rewrite read_coefficient. unfold read_column. rewrite Ej. apply den_unique; [|assumption]. pose proof (column_nodup j Lj) as N. unfold read_column in N. now rewrite Ej in N.
  - right. apply in_map_iff in H. destruct H as ([j w] & EQ & H). injection EQ as E1 E2 E3. subst w. split; [rewrite <- E2; symmetry; apply (cost_row_name f m FR D)|]. pose proof (mo_cost m OK j v H) as Lj.
    exists j. rewrite read_vars. split; [assumption|]. split; [assumption|].
    destruct (convert_got m OK g E) as (_ & _ & _ & _ & _ & _ & _ & _ & _ & _ & _ & VV). destruct (VV j _ (nth_error_nth' (m_columns m) (mk_mcolumn "" false []) Lj)) as (st & A & ->).
    destruct (fill_default_keeps st) as (_ & -> & _). rewrite (af_cost _ _ _ A). cbn [v_cost]. apply den_unique; [exact (increasing_NoDup _ _ (mo_costs m OK))|assumption].
Qed.
Lemma cost_said j v : (j < nr_vars g)%nat -> In (column_at m j, cost_row f, v) (coefficients f) -> v_cost (var g j) = v.
Proof using D E FS.
  intros Lj H. destruct (said_cases _ _ _ H) as [(i & k & Li & _ & R & _)|(_ & k & Lk & C & V)].
  - exfalso. rewrite read_rows in Li. apply (cost_not_row f m FR D i Li). now rewrite R, (cost_row_name f m FR D).
  - rewrite read_vars in *. now rewrite <- (column_at_inj f m FR D k j Lk Lj C).
Qed.
Lemma column_named j : (j < nr_vars g)%nat -> In (column_at m j) (map fst (columns_of f)).
Proof using D E FS. intros L. apply (column_in f m D). exists j. rewrite read_vars in L. now split. Qed.
Lemma row_named i : (i < g_rows g)%nat -> In (Some (kind_of m i), row_at m i) (f_rows f).
Proof using D E FS. intros L. apply (row_in f m D). exists i. rewrite read_rows in L. now split. Qed.
(** the type and right-hand side of a row *)
Lemma row_said i : no_ranges f -> (i < g_rows g)%nat -> row_type g i = plain (kind_of m i) /\ frhs f (row_at m i) (nthq (g_b g) i).
Proof using D E FS.
  intros NR L. rewrite read_rows in L. destruct (convert_got m OK g E) as (_ & _ & _ & _ & _ & _ & _ & _ & _ & _ & RR & _).
  destruct (RR i L) as [(_ & T & H)|(r & Hr & _)].
  - split; [exact T|]. unfold frhs.
    assert (V : forall v, In v (values_at i (ungroup (m_rhss m))) -> exists gn, In (gn, row_at m i, v) (vector_values (f_rhs f))) by (intros v Hv; apply values_at_In in Hv; now apply (rhs_iff f m FR D i v L)).
    destruct H as [[N ->]|[[[_ H] N]|[[_ [H _]]|[_ [H _]]]]].
    + right. split; [reflexivity|]. intros gn b' Hb. assert (X : given_rhs m i b') by (apply (rhs_iff f m FR D i b' L); now exists gn). apply values_at_In in X. rewrite N in X. destruct X.
    + left. destruct (values_at i (ungroup (m_rhss m))) as [|x l] eqn:Ev; [congruence|]. rewrite (H x (or_introl eq_refl)). apply V. now left.
    + left. now apply V.
    + left. now apply V.
  - exfalso. apply (range_iff f m FR D i r L) in Hr. destruct Hr as (gn & Hr). exact (NR _ _ _ Hr).
Qed.
(** bounds *)
Lemma bounds_said j x : (j < nr_vars g)%nat -> (in_bounds (var g j) x <-> fallowed f (column_at m j) x).
Proof using D E FS. intros L. rewrite read_vars in L. rewrite (allowed_agrees f m FR D j x L). exact (convert_bounds m OK g j x E L). Qed.
Lemma upper_said j u : (j < nr_vars g)%nat -> v_upper (var g j) = Some u -> exists t gn, In (t, gn, column_at m j) (f_bounds f) /\ up_of t = Some u.
Proof using D E FS. intros L EU. rewrite read_vars in L. destruct (converted_upper m g j u OK E L EU) as (t & T & U). apply (bound_iff f m FR D j t L) in T. destruct T as (gn & T). now exists t, gn. Qed.
Lemma lower_said j l : (j < nr_vars g)%nat -> v_lower (var g j) = Some l -> (exists t gn, In (t, gn, column_at m j) (f_bounds f) /\ low_of t = Some l) \/ l = 0.
Proof using D E FS. intros L EL. rewrite read_vars in L. destruct (converted_lower m g j l OK E L EL) as [(t & T & U)|[-> _]]; [left|now right]. apply (bound_iff f m FR D j t L) in T. destruct T as (gn & T). now exists t, gn. Qed.
Lemma starts_at_zero j : (forall t gn c, In (t, gn, c) (f_bounds f) -> up_to t) -> (j < nr_vars g)%nat -> v_lower (var g j) = Some 0 /\ forall u, v_upper (var g j) = Some u -> 0 < u.
Proof using D E FS.
  intros B L. assert (U : forall u, v_upper (var g j) = Some u -> 0 < u).
  { intros u EU. destruct (upper_said j u L EU) as (t & gn & T & Eu). pose proof (B _ _ _ T) as P. destruct t; cbn in P, Eu; try contradiction; injection Eu as <-; [assumption|reflexivity|assumption]. }
  split; [|exact U]. destruct (v_lower (var g j)) as [l|] eqn:EL.
  - f_equal. destruct (lower_said j l L EL) as [(t & gn & T & El)|Z]; [|assumption]. pose proof (B _ _ _ T) as P. destruct t; cbn in P, El; try contradiction; try discriminate. now injection El as <-.
  - exfalso. assert (I : in_bounds (var g j) (- (1))).
    { split; [intros l X; congruence|]. intros u EU. pose proof (U u EU). qlra. }
    apply (bounds_said j _ L) in I. destruct I as [I1 I2]. destruct (existsb (fun '(t, _, c) => String.eqb c (column_at m j) && match t with Binary => true | _ => false end)%bool (f_bounds f)) eqn:Bi.
    + apply existsb_exists in Bi. destruct Bi as ([[t gn] c] & T & Q). apply andb_prop in Q. destruct Q as [Q1 Q2]. apply String.eqb_eq in Q1. subst c. destruct t; try discriminate. specialize (I1 _ _ T). cbn in I1. destruct I1 as [I1 _]. qlra.
    + assert (X : 0 <= - (1)); [|qlra]. apply I2. intros t gn T. pose proof (B _ _ _ T) as P. destruct t; cbn in P |- *; try contradiction; try exact I.
      assert (Y : existsb (fun '(t, _, c) => String.eqb c (column_at m j) && match t with Binary => true | _ => false end)%bool (f_bounds f) = true); [|congruence].
      apply existsb_exists. exists (Binary, gn, column_at m j). split; [assumption|]. now rewrite String.eqb_refl.
Qed.
Lemma has_upper j t gn : (forall t gn c, In (t, gn, c) (f_bounds f) -> up_to t) -> (j < nr_vars g)%nat -> In (t, gn, column_at m j) (f_bounds f) -> v_upper (var g j) <> None.
Proof using D E FS.
  intros B L T N. pose proof (B _ _ _ T) as P. destruct (starts_at_zero j B L) as [Z _].
  assert (I : forall x, 0 <= x -> fallowed f (column_at m j) x).
  { intros x X. apply (bounds_said j x L). split; [intros l EL; rewrite Z in EL; injection EL as <-; assumption|intros u EU; congruence]. }
  destruct t as [v|v|v| | | | |v|v|l u]; cbn in P; try contradiction.
  - assert (X : 0 <= v + 1) by qlra. pose proof (proj1 (I _ X) _ _ T) as Y. cbn in Y. qlra.
  - assert (X : 0 <= 1 + 1) by qlra. pose proof (proj1 (I _ X) _ _ T) as Y. cbn in Y. destruct Y as [_ Y]. qlra.
  - assert (X : 0 <= v + 1) by qlra. pose proof (proj1 (I _ X) _ _ T) as Y. cbn in Y. qlra.
Qed.
Lemma read_packing : file_packing f -> packing g /\ priced g.
Proof using D E FS.
  intros P. split; [constructor|].
  - intros i L. destruct (row_said i (fp_ranges _ P) L) as [-> _]. now rewrite (fp_rows _ P _ _ (row_named i L)).
  - intros i j Li Lj. destruct (Qc_eq_dec (coefficient g i j) 0) as [Z|N]; [rewrite Z; apply Qcle_refl|]. destruct (coefficient_said i j Li Lj N) as [S C]. apply Qclt_le_weak. exact (fp_signs _ P _ _ _ S C).
  - intros i L. destruct (row_said i (fp_ranges _ P) L) as [_ R]. exact (fp_supply _ P _ _ _ (row_named i L) R).
  - intros j L. now apply (starts_at_zero j (fp_bounds _ P) L).
  - intros j h L. now apply (starts_at_zero j (fp_bounds _ P) L).
  - intros j L. destruct (fp_limit _ P _ (column_named j L)) as [(t & gn & T)|(r & v & N & S)]; [left; exact (has_upper j t gn (fp_bounds _ P) L T)|right].
    destruct (said_cases _ _ _ S) as [(i & k & Li & Lk & R & C & V)|(X & _)]; [|now elim N]. exists i. split; [assumption|]. rewrite read_vars in *. rewrite <- (column_at_inj f m FR D k j Lk L C), V. exact (fs_coefficients f FS _ _ _ S).
  - intros j L. destruct (fp_costs _ P _ (column_named j L)) as (v & S). rewrite (cost_said j v L S). exact (fs_coefficients f FS _ _ _ S).
Qed.
Lemma read_covering : file_covering f -> covering g.
Proof using D E FS.
  intros P. assert (B : forall t gn c, In (t, gn, c) (f_bounds f) -> up_to t) by (rewrite (fv_bounds _ P); intros t gn c []). constructor.
  - destruct (convert_got m OK g E) as (-> & _). rewrite (sense_agrees f m D). apply (fv_sense _ P).
  - intros i L. destruct (row_said i (fv_ranges _ P) L) as [-> _]. destruct (fv_rows _ P _ _ (row_named i L)) as [-> _]. reflexivity.
  - intros i j Li Lj. destruct (Qc_eq_dec (coefficient g i j) 0) as [Z|N]; [rewrite Z; apply Qcle_refl|]. destruct (coefficient_said i j Li Lj N) as [S C]. apply Qclt_le_weak. exact (fv_signs _ P _ _ _ S).
  - intros i L. destruct (fv_rows _ P _ _ (row_named i L)) as [_ (c & v & S)]. destruct (said_cases _ _ _ S) as [(k & j & Lk & Lj & R & C & V)|(X & _)].
    + exists j. split; [assumption|]. rewrite read_rows in *. rewrite <- (row_at_inj f m FR D k i Lk L R), V. exact (fs_coefficients f FS _ _ _ S).
    + exfalso. rewrite read_rows in L. apply (cost_not_row f m FR D i L). now rewrite X, (cost_row_name f m FR D).
  - intros j L. split; [now apply (starts_at_zero j B L)|]. destruct (v_upper (var g j)) as [u|] eqn:EU; [|reflexivity]. destruct (upper_said j u L EU) as (t & gn & T & _). rewrite (fv_bounds _ P) in T. destruct T.
  - intros j L. destruct (fv_costs _ P _ (column_named j L)) as (v & S). rewrite (cost_said j v L S). exact (fv_signs _ P _ _ _ S).
Qed.
End Read.

Section With.
Variable parse : string -> out mps.
Let reads (text : string) (f : file) : Prop := exists m, parse text = Got m /\ describes m f.
Lemma read_sided f m g : file_solvable f -> describes m f -> to_general m = Got g -> file_sided f -> one_sided g /\ ~ gunbounded g.
Proof using.
  intros FS D E [P|P].
  - destruct (read_packing f m g FS D E P) as [K C]. split; [now apply packing_sided|now apply packing_not_unbounded].
  - pose proof (read_covering f m g FS D E P) as K. split; [now apply covering_sided|now apply covering_not_unbounded].
Qed.
Lemma with_sided_safe f text fuel : file_solvable f -> reads text f -> file_sided f -> safe_with parse fuel text = true.
Proof using.
  intros FS T P. destruct (pre_with_solved parse f text FS T) as (m & g & D & S & G & OK & FR & R & Q). rewrite Q. apply one_sided_safe; [assumption|]. now apply (read_sided f m g).
Qed.
Lemma with_sided_answer f text r n fuel a : file_solvable f -> reads text f -> file_sided f -> presolve_with parse r n fuel text = Got (Ok a) ->
  exists s, a = Solved_to s /\ map fst (s_values s) = map fst (columns_of f) /\ foptimal f (answer_at s) /\ (fsense f = Minimize -> s_objective s = fcost f (answer_at s)).
Proof using.
  intros FS T P E. pose proof (pre_with_answer parse f text r n fuel a FS T (with_sided_safe f text fuel FS T P) E) as A.
  destruct (pre_with_solved parse f text FS T) as (m & g & D & S & G & OK & FR & R & Q). destruct (read_sided f m g FS D G P) as [O NU]. rewrite R in E. injection E as E.
  pose proof (sided_answer g OK FR r n fuel a O E) as B. destruct a as [s| |]; [now exists s|contradiction|now elim NU].
Qed.
Lemma with_sided_calm f text n fuel : file_solvable f -> reads text f -> file_sided f -> exists result, presolve_with parse UseRows n fuel text = Got result /\ result <> Panic.
Proof using. intros FS T P. apply (pre_with_no_panic parse f text n fuel FS T). now apply (with_sided_safe f). Qed.
Lemma with_sided_solved f text : file_solvable f -> reads text f -> file_sided f -> exists fuel0 s,
  (forall fuel, (fuel0 <= fuel)%nat -> presolve_with parse UseRows FirstProfitable fuel text = Got (Ok (Solved_to s))) /\
  map fst (s_values s) = map fst (columns_of f) /\ foptimal f (answer_at s) /\ (fsense f = Minimize -> s_objective s = fcost f (answer_at s)).
Proof using.
  intros FS T P. destruct (pre_with_terminates parse f text FS T (fun fuel => with_sided_safe f text fuel FS T P)) as (fuel0 & a & H).
  destruct (with_sided_answer f text _ _ fuel0 a FS T P (H fuel0 (le_n _))) as (s & -> & A). exists fuel0, s. now split.
Qed.
End With.
