(** * Reported optima of general form programs and of files are vertices: proofs *)
From Verif Require Import SpecVertex Pipeline SolverQ VertexP MatrixDataP StandardP StandardR PipelineP ConvertP SpecMps BoundsP RangesP MpsP TextPipeline TextSolveP.
Local Open Scope Qc_scope.

Lemma feasible_mix p a x y : 0 < a -> a < 1 -> feasible p x -> feasible p y -> feasible p (mix a x y).
Proof.
  intros A B [X1 X2] [Y1 Y2]. split.
  - intros i Li. transitivity (a * sum (p_cols p) (fun j => den (p_col p j) i * x j) + (1 - a) * sum (p_cols p) (fun j => den (p_col p j) i * y j)).
    + rewrite <- !sum_scal_l, <- sum_plus. apply sum_ext. intros j _. unfold mix. ring.
    + rewrite X1, Y1 by assumption. ring.
  - intros j Lj. unfold mix. specialize (X2 j Lj). specialize (Y2 j Lj).
    assert (0 <= a * x j) by (apply Qc_mul_nonneg; qlra). assert (0 <= (1 - a) * y j) by (apply Qc_mul_nonneg; qlra). qlra.
Qed.
Section Derived.
Variables (g : general) (c : counts) (d : matrix_data).
Hypothesis (P : general_ok g) (SH : standard_shape g c) (D : derived g c d).
Lemma with_slacks_ext x y : (forall j, (j < nr_vars g)%nat -> x j = y j) -> forall j, (j < p_cols (md_provider d))%nat -> with_slacks g c d x j = with_slacks g c d y j.
Proof.
  intros H. assert (RV : forall i, row_value g x i = row_value g y i) by (intros i; now apply (row_value_ext g)).
  apply (col_cases g c d D (fun j => with_slacks g c d x j = with_slacks g c d y j)).
  - intros j L. rewrite !(with_slacks_normal g c d D) by assumption. now apply H.
  - intros k L. unfold with_slacks. rewrite (class_range g c d D) by assumption. now rewrite RV.
  - intros k L. unfold with_slacks. rewrite (class_upper g c d D) by assumption. now rewrite RV.
  - intros k L. unfold with_slacks. rewrite (class_lower g c d D) by assumption. now rewrite RV.
  - intros k L. unfold with_slacks. rewrite (class_bound g c d D) by assumption. rewrite H; [reflexivity|]. now apply (bound_lt g c d D).
  - intros k L. unfold with_slacks. rewrite (class_slack g c d D) by assumption. now rewrite RV.
Qed.
Lemma md_extreme x : feasible (md_provider d) x -> extreme (md_provider d) x -> gextreme g x.
Proof.
  intros X EX y z a Y Z A B E.
  pose proof (general_feasible g c d P SH D y Y) as Y'. pose proof (general_feasible g c d P SH D z Z) as Z'.
  pose proof (feasible_mix _ a _ _ A B Y' Z') as M.
  assert (N : forall j, (j < nr_vars g)%nat -> (j < p_cols (md_provider d))%nat).
  { intros j Lj. change (p_cols (md_provider d)) with (md_nr_columns d). rewrite (c_total g c d D). lia. }
  assert (H : forall j, (j < p_cols (md_provider d))%nat -> x j = a * with_slacks g c d y j + (1 - a) * with_slacks g c d z j).
  { intros j Lj. rewrite (with_slacks_unique g c d P SH D x X j Lj).
    change (a * with_slacks g c d y j + (1 - a) * with_slacks g c d z j) with (mix a (with_slacks g c d y) (with_slacks g c d z) j).
    rewrite (with_slacks_unique g c d P SH D _ M j Lj). apply with_slacks_ext; [|assumption].
    intros k Lk. unfold mix. rewrite !(with_slacks_normal g c d D) by assumption. now apply E. }
  intros j Lj. destruct (EX _ _ a Y' Z' A B H j (N j Lj)) as [U V]. rewrite !(with_slacks_normal g c d D) in U, V by assumption. now split.
Qed.
End Derived.

Lemma gextreme_ext g x y : (forall j, (j < nr_vars g)%nat -> x j = y j) -> gextreme g x -> gextreme g y.
Proof.
  intros H E u v a U V A B M j Lj. rewrite <- H by assumption. apply (E u v a U V A B); [|assumption]. intros k Lk. rewrite H by assumption. now apply M.
Qed.
Lemma standardized_extreme g g' F G x : standardized g g' F G -> bounded g -> gextreme g' x -> gextreme g (F x).
Proof.
  intros S NF E y z a Y Z A B M.
  assert (H : forall j, (j < nr_vars g')%nat -> x j = a * G y j + (1 - a) * G z j).
  { intros j Lj. change (a * G y j + (1 - a) * G z j) with (mix a (G y) (G z) j).
    rewrite <- (sd_one _ _ _ _ S NF x j Lj), <- (sd_one _ _ _ _ S NF (mix a (G y) (G z)) j Lj).
    apply (sd_ext' _ _ _ _ S); [|assumption]. intros k Lk. rewrite (sd_mix _ _ _ _ S) by assumption. unfold mix.
    rewrite !(sd_inv _ _ _ _ S) by assumption. now apply M. }
  pose proof (E _ _ a (sd_forth _ _ _ _ S y Y) (sd_forth _ _ _ _ S z Z) A B H) as K.
  intros j Lj. rewrite <- (sd_inv _ _ _ _ S y j Lj), <- (sd_inv _ _ _ _ S z j Lj).
  split; apply (sd_ext _ _ _ _ S); try assumption; intros k Lk; now apply K.
Qed.
Lemma solve_general_extreme r n fuel g s : general_ok g -> bounded g -> solve_general r n fuel g = Ok (Solved_to s) ->
  exists x val, gextreme g x /\ completed g x val /\
    s_values s = combine (map fst (g_orig g)) (map val (range 0 (length (g_orig g)))).
Proof.
  intros P NF E. unfold solve_general in E. destruct (standardize_spec g P) as (g' & c & F & G & ES & P' & SH & ST).
  rewrite ES in E. cbn [bind fst snd] in E. destruct (derive_spec g' c P' SH) as (d & ED & D). rewrite ED in E. cbn [bind] in E.
  pose proof (md_provider_ok g' c d P' SH D) as PO.
  destruct (run r n fuel (md_provider d)) as [[|z|]| |] eqn:ER; cbn [bind] in E; try discriminate.
  destruct (full_solution fuel g' (reconstruct d z)) as [s'| |] eqn:EF; cbn [bind] in E; try discriminate. injection E as ->.
  destruct (run_optimum r n fuel _ z PO ER) as [[O _] W].
  destruct (reconstruct_spec g' c d P' D z W) as [W' R].
  destruct (full_solution_spec _ _ _ _ P' W' EF) as (val & C & V & SO).
  pose proof (md_extreme g' c d P' SH D _ O (run_extreme r n fuel _ z PO ER)) as X.
  exists (F (den (reconstruct d z))), val. split; [|split].
  - apply (standardized_extreme _ _ _ _ _ ST NF). apply (gextreme_ext g' (den z)); [|assumption]. intros j Lj. symmetry. now apply R.
  - now apply (sd_values _ _ _ _ ST).
  - rewrite V, (sd_names _ _ _ _ ST). f_equal. f_equal. f_equal.
    rewrite <- (map_length fst (g_orig g')), (sd_names _ _ _ _ ST). apply map_length.
Qed.
Lemma fresh_extreme r n fuel g s : general_ok g -> fresh g -> bounded g -> solve_general r n fuel g = Ok (Solved_to s) -> gextreme g (solution_point s).
Proof.
  intros P FR NF E. destruct (solve_general_extreme r n fuel g s P NF E) as (x & val & X & C & V).
  destruct (fresh_values g s x val FR C V) as [_ H]. now apply (gextreme_ext g x).
Qed.

(** ** Files *)
Lemma read_extreme f m g r n fuel s : file_solvable f -> describes m f -> mps_solvable m -> to_general m = Got g -> fbounded f ->
  solve_general r n fuel g = Ok (Solved_to s) -> fextreme f (answer_at s).
Proof.
  intros FS D S E FB R. destruct (convert_solvable m g S E) as [OK FR]. pose proof (ms_ok m S) as MO.
  destruct (convert_got m MO g E) as (EO & _ & _ & _ & EN & NM & _).
  assert (B : bounded g).
  { intros j Lj [Lo Up]. rewrite EN in Lj. destruct (FB (column_at m j)) as [x NA].
    { apply (column_in f m D). now exists j. }
    apply NA. apply (allowed_agrees f m (fs_rules f FS) D j x Lj). apply (convert_bounds m MO g j x E Lj). split; intros; congruence. }
  pose proof (fresh_extreme r n fuel g s OK FR B R) as X.
  assert (AN : forall j, (j < length (m_columns m))%nat -> answer_at s (column_at m j) = solution_point s j).
  { apply (answer_named f m FS D s). destruct (solve_general_optimum r n fuel g s OK R) as (x & val & _ & C & V & _).
    rewrite (proj1 (fresh_values g s x val FR C V)). exact NM. }
  assert (FG : forall y, ffeasible f y -> gfeasible g (point m y)).
  { intros y Y. apply (convert_feasible m MO g _ E (ms_ranges m S)). now apply (feasible_agrees f m (fs_rules f FS) D). }
  intros y z a Y Z A1 A2 M c C. apply (column_in f m D) in C. destruct C as (j & Lj & <-).
  assert (Lg : (j < nr_vars g)%nat) by now rewrite EN.
  rewrite (AN j Lj). apply (X (point m y) (point m z) a (FG y Y) (FG z Z) A1 A2); [|assumption].
  intros k Lk. rewrite EN in Lk. rewrite <- (AN k Lk). apply M. apply (column_in f m D). now exists k.
Qed.
Lemma with_extreme parse f text r n fuel s : file_solvable f -> (exists m, parse text = Got m /\ describes m f) -> fbounded f ->
  solve_with parse r n fuel text = Got (Ok (Solved_to s)) -> fextreme f (answer_at s).
Proof.
  intros FS T FB E. destruct (with_solved parse f text FS T) as (m & g & D & S & G & R). rewrite R in E. injection E as E.
  exact (read_extreme f m g r n fuel s FS D S G FB E).
Qed.
