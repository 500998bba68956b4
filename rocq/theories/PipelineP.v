(** * The whole pipeline from a general form to its solution *)
From Verif Require Import SpecGeneral SparseP KindP KeptP ArtP StandardP StandardQ StandardR MatrixDataP Pipeline SolverP.
Local Open Scope Qc_scope.

Lemma gfeasible_ext g x y : (forall j, (j < nr_vars g)%nat -> x j = y j) -> gfeasible g x -> gfeasible g y.
Proof.
  intros H [A B]. split.
  - intros i Li. rewrite <- (row_value_ext g x y i H). now apply A.
  - intros j Lj. rewrite <- H by assumption. now apply B.
Qed.
Lemma gcost_ext g x y : (forall j, (j < nr_vars g)%nat -> x j = y j) -> gcost g x = gcost g y.
Proof. intros H. unfold gcost. f_equal. apply sum_ext. intros j Lj. now rewrite H. Qed.
Lemma goptimal_ext g x y : (forall j, (j < nr_vars g)%nat -> x j = y j) -> goptimal g x -> goptimal g y.
Proof.
  intros H [A B]. split; [now apply (gfeasible_ext g x)|]. intros z Hz. rewrite <- (gcost_ext g x y H). now apply B.
Qed.

Lemma kept_tail n m : (n <= m)%nat -> kept m (range n m) = seq 0 n.
Proof.
  intros L. unfold kept. replace m with (n + (m - n))%nat at 1 by lia. rewrite seq_app, filter_app. cbn [Nat.add].
  assert (H1 : forall l, (forall x, In x l -> (n <= x < m)%nat) -> filter (fun r => negb (memb r (range n m))) l = []).
  { induction l as [|x l IH]; intros H; [reflexivity|]. cbn [filter].
    rewrite (proj2 (memb_In x (range n m))) by (apply In_range; apply H; now left). cbn [negb]. apply IH. intros; apply H; now right. }
  assert (H2 : forall l, (forall x, In x l -> (x < n)%nat) -> filter (fun r => negb (memb r (range n m))) l = l).
  { induction l as [|x l IH]; intros H; [reflexivity|]. cbn [filter].
    rewrite (proj2 (memb_false x (range n m))). 2:{ intros Hx. apply In_range in Hx. specialize (H x (or_introl eq_refl)). lia. }
    cbn [negb]. f_equal. apply IH. intros; apply H; now right. }
  rewrite (H2 (seq 0 n)), (H1 (seq n (m - n))%nat).
  - apply app_nil_r.
  - intros x Hx. apply in_seq in Hx. lia.
  - intros x Hx. apply in_seq in Hx. lia.
Qed.

Section Derived.
Variables (g : general) (c : counts) (d : matrix_data).
Hypothesis (P : general_ok g) (SH : standard_shape g c) (D : derived g c d).
Lemma reconstruct_spec z : wfs (md_nr_columns d) z ->
  wfs (nr_vars g) (reconstruct d z) /\ forall j, (j < nr_vars g)%nat -> den (reconstruct d z) j = den z j.
Proof.
  intros W. unfold reconstruct. rewrite (dv_cols _ _ _ D), (gok_cols _ P).
  assert (L : (nr_vars g <= md_nr_columns d)%nat) by (rewrite (c_total g c d D); lia).
  assert (ND : NoDup (range (nr_vars g) (md_nr_columns d))) by (unfold range; apply seq_NoDup).
  pose proof (wfs_sremove _ _ _ ND W) as W'. rewrite (kept_tail _ _ L), seq_length in W'. split; [exact W'|].
  intros j Lj. rewrite (den_sremove (md_nr_columns d)).
  - rewrite (kept_tail _ _ L). now rewrite seq_nth by assumption.
  - assumption.
  - intros i v H. exact (wfs_In_lt _ _ _ _ W H).
  - now rewrite (kept_tail _ _ L), seq_length.
Qed.
(** the program in standard shape and the computational form have the same optima *)
Lemma md_optimal z : optimal (md_provider d) z -> goptimal g z.
Proof.
  intros [F O]. split; [now apply (feasible_general g c d P SH D)|]. rewrite (ss_objective _ _ SH). cbn [better]. intros y Fy.
  specialize (O _ (general_feasible g c d P SH D y Fy)). rewrite <- (md_objective g c d D z).
  rewrite <- (gcost_ext g (with_slacks g c d y) y) by (intros j Lj; now apply (with_slacks_normal g c d D)).
  rewrite <- (md_objective g c d D). qlra.
Qed.
Lemma md_infeasible : (forall x, ~ feasible (md_provider d) x) -> forall x, ~ gfeasible g x.
Proof. intros H x F. apply (H _ (general_feasible g c d P SH D x F)). Qed.
Lemma md_unbounded : unbounded (md_provider d) -> gunbounded g.
Proof.
  intros [[x Fx] U]. split; [exists x; now apply (feasible_general g c d P SH D)|]. rewrite (ss_objective _ _ SH). intros bound.
  destruct (U (bound - g_fixed g)) as (y & Fy & Ly). exists y. split; [now apply (feasible_general g c d P SH D)|].
  rewrite <- (md_objective g c d D). qlra.
Qed.
End Derived.

Lemma standardized_optimal g g' F G x : standardized g g' F G -> g_objective g' = Minimize -> goptimal g' x -> goptimal g (F x).
Proof.
  intros S M [Fx O]. split; [now apply (sd_back _ _ _ _ S)|]. intros y Fy. specialize (O _ (sd_forth _ _ _ _ S y Fy)).
  rewrite M in O. cbn [better] in O. rewrite !(sd_cost _ _ _ _ S) in O.
  assert (E : gcost g (F (G y)) = gcost g y) by (apply gcost_ext; intros j Lj; now apply (sd_inv _ _ _ _ S)).
  rewrite E in O. destruct (g_objective g); cbn [better]; qlra.
Qed.
Lemma standardized_infeasible g g' F G : standardized g g' F G -> (forall x, ~ gfeasible g' x) -> forall x, ~ gfeasible g x.
Proof. intros S H x Fx. exact (H _ (sd_forth _ _ _ _ S x Fx)). Qed.
Lemma standardized_unbounded g g' F G : standardized g g' F G -> g_objective g' = Minimize -> gunbounded g' -> gunbounded g.
Proof.
  intros S M [[x Fx] U]. rewrite M in U. split; [exists (F x); now apply (sd_back _ _ _ _ S)|]. intros bound.
  destruct (g_objective g) eqn:O.
  - destruct (U bound) as (y & Fy & Ly). exists (F y). split; [now apply (sd_back _ _ _ _ S)|].
    rewrite (sd_cost _ _ _ _ S), O in Ly. exact Ly.
  - destruct (U (g_fixed g' + g_fixed g' - bound)) as (y & Fy & Ly). exists (F y). split; [now apply (sd_back _ _ _ _ S)|].
    rewrite (sd_cost _ _ _ _ S), O in Ly. qlra.
Qed.

Lemma solve_general_optimum r n fuel g s : general_ok g -> solve_general r n fuel g = Ok (Solved_to s) ->
  exists x val, goptimal g x /\ completed g x val /\
    s_values s = combine (map fst (g_orig g)) (map val (range 0 (length (g_orig g)))) /\
    match g_objective g with Minimize => s_objective s = gcost g x
    | Maximize => exists g' c, standardize g = Ok (g', c) /\ s_objective s = g_fixed g' + g_fixed g' - gcost g x end.
Proof.
  intros P E. unfold solve_general in E. destruct (standardize_spec g P) as (g' & c & F & G & ES & P' & SH & ST).
  rewrite ES in E. cbn [bind fst snd] in E. destruct (derive_spec g' c P' SH) as (d & ED & D). rewrite ED in E. cbn [bind] in E.
  pose proof (md_provider_ok g' c d P' SH D) as PO.
  destruct (run r n fuel (md_provider d)) as [[|z|]| |] eqn:ER; cbn [bind] in E; try discriminate.
  destruct (full_solution fuel g' (reconstruct d z)) as [s'| |] eqn:EF; cbn [bind] in E; try discriminate. injection E as ->.
  destruct (run_optimum r n fuel _ z PO ER) as [O W].
  destruct (reconstruct_spec g' c d P' D z W) as [W' R].
  destruct (full_solution_spec _ _ _ _ P' W' EF) as (val & C & V & SO).
  pose proof (md_optimal g' c d P' SH D _ O) as O'.
  assert (O'' : goptimal g' (den (reconstruct d z))) by (apply (goptimal_ext g' (den z)); [intros j Lj; symmetry; now apply R|assumption]).
  exists (F (den (reconstruct d z))), val. split; [exact (standardized_optimal _ _ _ _ _ ST (ss_objective _ _ SH) O'')|].
  split; [now apply (sd_values _ _ _ _ ST)|]. split.
  - rewrite V. rewrite (sd_names _ _ _ _ ST). f_equal. f_equal. f_equal.
    rewrite <- (map_length fst (g_orig g')), (sd_names _ _ _ _ ST). apply map_length.
  - rewrite SO, (sd_cost _ _ _ _ ST). destruct (g_objective g); [reflexivity|]. exists g', c. split; [assumption|reflexivity].
Qed.
Lemma solve_general_infeasible r n fuel g : general_ok g -> solve_general r n fuel g = Ok NoSolution -> forall x, ~ gfeasible g x.
Proof.
  intros P E. unfold solve_general in E. destruct (standardize_spec g P) as (g' & c & F & G & ES & P' & SH & ST).
  rewrite ES in E. cbn [bind fst snd] in E. destruct (derive_spec g' c P' SH) as (d & ED & D). rewrite ED in E. cbn [bind] in E.
  pose proof (md_provider_ok g' c d P' SH D) as PO.
  destruct (run r n fuel (md_provider d)) as [[|z|]| |] eqn:ER; cbn [bind] in E; try discriminate.
  - apply (standardized_infeasible _ _ _ _ ST), (md_infeasible g' c d P' SH D). exact (run_infeasible r n fuel _ PO ER).
  - destruct (full_solution fuel g' (reconstruct d z)); discriminate.
Qed.
Lemma solve_general_unbounded r n fuel g : general_ok g -> solve_general r n fuel g = Ok NoBound -> gunbounded g.
Proof.
  intros P E. unfold solve_general in E. destruct (standardize_spec g P) as (g' & c & F & G & ES & P' & SH & ST).
  rewrite ES in E. cbn [bind fst snd] in E. destruct (derive_spec g' c P' SH) as (d & ED & D). rewrite ED in E. cbn [bind] in E.
  pose proof (md_provider_ok g' c d P' SH D) as PO.
  destruct (run r n fuel (md_provider d)) as [[|z|]| |] eqn:ER; cbn [bind] in E; try discriminate.
  - destruct (full_solution fuel g' (reconstruct d z)); discriminate.
  - apply (standardized_unbounded _ _ _ _ ST (ss_objective _ _ SH)), (md_unbounded g' c d P' SH D). exact (run_unbounded r n fuel _ PO ER).
Qed.

(** ** Programs as written down: the values reported are the point itself *)
Lemma combine_fst {A B} (l : list A) (m : list B) : length l = length m -> map fst (combine l m) = l.
Proof. revert m. induction l as [|x l IH]; intros [|y m] H; try discriminate; [reflexivity|]. cbn. f_equal. apply IH. now injection H. Qed.
Lemma combine_snd {A B} (l : list A) (m : list B) : length l = length m -> map snd (combine l m) = m.
Proof. revert m. induction l as [|x l IH]; intros [|y m] H; try discriminate; [reflexivity|]. cbn. f_equal. apply IH. now injection H. Qed.
Lemma fresh_values g s x val : fresh g -> completed g x val ->
  s_values s = combine (map fst (g_orig g)) (map val (range 0 (length (g_orig g)))) ->
  map fst (s_values s) = map fst (g_orig g) /\ forall j, (j < nr_vars g)%nat -> x j = solution_point s j.
Proof.
  intros FR C V.
  assert (L : length (map fst (g_orig g)) = length (map val (range 0 (length (g_orig g))))).
  { unfold range. rewrite !map_length, seq_length. lia. }
  split; [rewrite V; now apply combine_fst|].
  intros j Lj. unfold solution_point. rewrite V, combine_snd by assumption.
  destruct FR as (LO & FR'). rewrite (nth_indep _ 0 (val 0%nat)).
  - rewrite map_nth. unfold range. rewrite Nat.sub_0_r, seq_nth by lia. symmetry. apply (fresh_completed g x val); [|assumption|assumption].
    split; assumption.
  - rewrite map_length. unfold range. rewrite seq_length. lia.
Qed.
Lemma fresh_optimum r n fuel g s : general_ok g -> fresh g -> g_objective g = Minimize -> solve_general r n fuel g = Ok (Solved_to s) ->
  map fst (s_values s) = map fst (g_orig g) /\ goptimal g (solution_point s) /\ s_objective s = gcost g (solution_point s).
Proof.
  intros P FR M E. destruct (solve_general_optimum r n fuel g s P E) as (x & val & O & C & V & SO). rewrite M in SO.
  destruct (fresh_values g s x val FR C V) as [N X]. split; [assumption|]. split; [now apply (goptimal_ext g x)|].
  rewrite SO. now apply gcost_ext.
Qed.
Lemma fresh_maximum r n fuel g s : general_ok g -> fresh g -> g_objective g = Maximize -> solve_general r n fuel g = Ok (Solved_to s) ->
  map fst (s_values s) = map fst (g_orig g) /\ goptimal g (solution_point s) /\
  exists g' c, standardize g = Ok (g', c) /\ s_objective s = g_fixed g' + g_fixed g' - gcost g (solution_point s).
Proof.
  intros P FR M E. destruct (solve_general_optimum r n fuel g s P E) as (x & val & O & C & V & SO). rewrite M in SO.
  destruct (fresh_values g s x val FR C V) as [N X]. split; [assumption|]. split; [now apply (goptimal_ext g x)|].
  destruct SO as (g' & c & Es & SO). exists g', c. split; [assumption|]. rewrite SO, (gcost_ext g x (solution_point s) X). reflexivity.
Qed.

(** ** No panic, termination *)
Lemma standardized_acyclic g g' F G : standardized g g' F G -> acyclic (g_orig g) -> acyclic (g_orig g').
Proof.
  intros S [rank R]. exists rank. intros o name c l j a E H. apply (sd_removed _ _ _ _ S) in E.
  destruct (R _ _ _ _ _ _ E H) as [L1 L2]. split; [|assumption].
  rewrite <- (map_length fst (g_orig g')), (sd_names _ _ _ _ S), map_length. assumption.
Qed.
Lemma value_no_panic orig z : acyclic orig -> forall fuel o, (o < length orig)%nat -> value_with_bfs fuel orig z o <> Panic.
Proof.
  intros [rank R]. induction fuel as [|fuel IH]; intros o Lo; [discriminate|]. cbn [value_with_bfs].
  destruct (nth_error orig o) as [[name e]|] eqn:E; [|apply nth_error_None in E; lia].
  rewrite (proj2 (index_ok _ _ _) E). cbn [bind snd]. destruct e as [j|p n|[w|c l]]; try discriminate.
  assert (Q : mapM (fun '(j, c0) => let* v := value_with_bfs fuel orig z j in Ok (v * c0)) l <> Panic).
  { assert (B : forall j a, In (j, a) l -> (j < length orig)%nat) by (intros j a Hj; now apply (R o name c l j a)).
    clear E. induction l as [|[j a] l IHl]; [discriminate|]. cbn [mapM].
    pose proof (IH j (B j a (or_introl eq_refl))) as IHj. destruct (value_with_bfs fuel orig z j); cbn [bind]; try discriminate; [|congruence].
    destruct (mapM _ l) eqn:El; cbn [bind]; try discriminate. exfalso. apply IHl; [|reflexivity]. intros; eapply B; right; eassumption. }
  destruct (mapM _ l) eqn:El; cbn [bind]; try discriminate. congruence.
Qed.
Lemma full_solution_no_panic fuel g z : wfs (nr_vars g) z -> acyclic (g_orig g) -> full_solution fuel g z <> Panic.
Proof.
  intros W A. unfold full_solution.
  destruct (mapM_total (fun '(j, x) => let* v := index (g_vars g) j in Ok (x * v_cost v)) z) as [ys Ey].
  { intros [j x] Hj. rewrite (index_nth _ _ no_variable) by exact (wfs_In_lt _ _ _ _ W Hj). eexists; reflexivity. }
  rewrite Ey. cbn [bind].
  assert (Q : forall l, (forall o, In o l -> (o < length (g_orig g))%nat) -> mapM (value_with_bfs fuel (g_orig g) (reshift (g_vars g) z)) l <> Panic).
  { induction l as [|o l IHl]; intros B; [discriminate|]. cbn [mapM].
    pose proof (value_no_panic _ (reshift (g_vars g) z) A fuel o (B o (or_introl eq_refl))) as H.
    destruct (value_with_bfs fuel (g_orig g) (reshift (g_vars g) z) o); cbn [bind]; try discriminate; [|congruence].
    destruct (mapM _ l) eqn:El; cbn [bind]; try discriminate. exfalso. apply IHl; [|reflexivity]. intros; apply B; now right. }
  specialize (Q (range 0 (length (g_orig g))) ltac:(intros o Ho; apply In_range in Ho; lia)).
  destruct (mapM _ (range 0 _)); cbn [bind]; try discriminate. congruence.
Qed.
Lemma rows_no_panic n fuel g : general_ok g -> acyclic (g_orig g) -> solve_general UseRows n fuel g <> Panic.
Proof.
  intros P A. unfold solve_general. destruct (standardize_spec g P) as (g' & c & F & G & ES & P' & SH & ST).
  rewrite ES. cbn [bind fst snd]. destruct (derive_spec g' c P' SH) as (d & ED & D). rewrite ED. cbn [bind].
  pose proof (md_provider_ok g' c d P' SH D) as PO.
  pose proof (run_no_panic_rows n fuel _ PO ltac:(intros l; discriminate)) as NP.
  destruct (run UseRows n fuel (md_provider d)) as [[|z|]| |] eqn:ER; cbn [bind]; try discriminate; [|congruence].
  destruct (run_optimum _ n fuel _ z PO ER) as [O W]. destruct (reconstruct_spec g' c d P' D z W) as [W' R].
  pose proof (full_solution_no_panic fuel g' _ W' (standardized_acyclic _ _ _ _ ST A)) as Q.
  destruct (full_solution fuel g' (reconstruct d z)); cbn [bind]; try discriminate. congruence.
Qed.
Lemma value_mono_le orig z o v : forall f1 f2, (f1 <= f2)%nat -> value_with_bfs f1 orig z o = Ok v -> value_with_bfs f2 orig z o = Ok v.
Proof. intros f1 f2 L. induction L; intros E; [assumption|]. now apply value_mono, IHL. Qed.
Lemma full_solution_mono f1 f2 g z s : (f1 <= f2)%nat -> full_solution f1 g z = Ok s -> full_solution f2 g z = Ok s.
Proof.
  intros L E. unfold full_solution in *. inv_ok. rewrite E0. cbn [bind].
  rewrite (mapM_mono (value_with_bfs f1 (g_orig g) (reshift (g_vars g) z)) _ _ r0); [reflexivity| |assumption].
  intros o v _. now apply value_mono_le.
Qed.
Lemma rows_terminates g : general_ok g -> acyclic (g_orig g) ->
  exists fuel a, forall fuel', (fuel <= fuel')%nat -> solve_general UseRows FirstProfitable fuel' g = Ok a.
Proof.
  intros P A. unfold solve_general. destruct (standardize_spec g P) as (g' & c & F & G & ES & P' & SH & ST).
  rewrite ES. cbn [bind fst snd]. destruct (derive_spec g' c P' SH) as (d & ED & D). rewrite ED. cbn [bind].
  pose proof (md_provider_ok g' c d P' SH D) as PO.
  assert (NF : forall l, p_init (md_provider d) = FullInit l -> (1 <= p_rows (md_provider d))%nat) by discriminate.
  destruct (run_first_profitable UseRows _ PO (sizes_rows _ NF)) as (f & res & H).
  destruct res as [|z|].
  - exists f, NoSolution. intros f' L. rewrite (H f' L). reflexivity.
  - destruct (run_optimum _ _ f _ z PO (H f (le_n f))) as [O W]. destruct (reconstruct_spec g' c d P' D z W) as [W' R].
    destruct (full_solution_returns g' (reconstruct d z) P' W' (standardized_acyclic _ _ _ _ ST A)) as (f0 & Hf).
    destruct (Hf f0 (le_n f0)) as [s Hs].
    exists (f + f0)%nat, (Solved_to s). intros f' L. rewrite (H f') by lia. cbn [bind].
    rewrite (full_solution_mono f0 f' _ _ _ ltac:(lia) Hs). reflexivity.
  - exists f, NoBound. intros f' L. rewrite (H f' L). reflexivity.
Qed.
