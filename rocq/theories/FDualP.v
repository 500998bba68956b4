(** * Certificates for the program in a file *)
From Verif Require Import TextPipeline FileP MpsP ConvertP MpsQ SparseP LinAlg GeneralQ TextSolveP PipelineP.
From Verif Require Export SpecFDual GDualP.
Local Open Scope Qc_scope.
Open Scope list_scope.

(** ** What certificates prove *)
Lemma total_le (A : Type) (h k : A -> Qc) l : (forall a, In a l -> h a <= k a) -> total (map h l) <= total (map k l).
Proof. intros H. induction l as [|a l IH]; [apply Qcle_refl|]. unfold total in *. cbn [map fold_right]. pose proof (H a (or_introl eq_refl)) as X. specialize (IH (fun b B => H b (or_intror B))). apply Qcplus_le_compat; assumption. Qed.
Lemma constraint_in f r : In r (constraint_names f) -> exists k, In (Some k, r) (f_rows f).
Proof.
  unfold constraint_names, constraint_rows. intros H. apply in_map_iff in H. destruct H as ([r' k'] & E & H). cbn in E. subst r'. apply in_flat_map in H. destruct H as ([[k|] r'] & H & K); [|destruct K]. destruct K as [K|[]]. injection K as -> ->. now exists k'.
Qed.
Lemma fproves_sound f cost y d v x : fproves f cost y d v -> ffeasible f x -> v <= cost x.
Proof.
  intros (rows & vars & HI & HR & HV & <-) [FR FV]. rewrite HI. apply Qcplus_le_compat; apply total_le.
  - intros r R. destruct (constraint_in f r R) as [k K]. exact (HR k r K _ (FR k r K)).
  - intros c C. exact (HV c C _ (FV c C)).
Qed.
Lemma fbound_proved f y d v x : fproves_bound f y d v -> ffeasible f x -> better (fsense f) v (fcost f x).
Proof. intros P F. pose proof (fproves_sound f _ y d _ x P F) as Q. destruct (fsense f); cbn in *; qlra. Qed.
Lemma finfeasible_proved f y d x : fproves_infeasible f y d -> ~ ffeasible f x.
Proof. intros (v & V & P) F. pose proof (fproves_sound f _ y d v x P F) as Q. cbn beta in Q. qlra. Qed.
Lemma frow_value_move f x t dir r : frow_value f (fun c => x c + t * dir c) r = frow_value f x r + t * frow_value f dir r.
Proof.
  unfold frow_value. induction (coefficients f) as [|[[c r'] v] l IH]; unfold total in *; cbn [map fold_right]; [ring|]. rewrite IH. destruct (String.eqb r' r); ring.
Qed.
Lemma fray_unbounded f x dir : ffeasible f x -> fray f dir -> funbounded f.
Proof.
  intros [FR FV] (DR & DV & DC). split; [exists x; now split|]. intros bound.
  destruct (far_enough (toward (fsense f) (fcost f x)) _ (toward (fsense f) bound) DC) as (t & T & LT). exists (fun c => x c + t * dir c). split.
  - split; [intros k r R; rewrite frow_value_move; now apply DR; [|apply FR|]|intros c C; apply DV; [assumption|now apply FV|assumption]].
  - unfold fcost in *. rewrite frow_value_move. destruct (fsense f); cbn [toward] in LT; qlra.
Qed.

(** ** Numbers by name *)
Definition by_name (n : nat) (at_ : nat -> string) (y : vec) : valuation := fun r => sum n (fun i => if String.eqb (at_ i) r then y i else 0).
Lemma by_name_at n at_ y i : (forall i j, (i < n)%nat -> (j < n)%nat -> at_ i = at_ j -> i = j) -> (i < n)%nat -> by_name n at_ y (at_ i) = y i.
Proof.
  intros INJ I. unfold by_name. rewrite (sum_single _ i); [now rewrite String.eqb_refl|assumption|]. intros j J N. destruct (String.eqb_spec (at_ j) (at_ i)) as [E|_]; [|reflexivity]. elim N. now apply INJ.
Qed.

Section File.
Variables (f : file) (m : mps) (g : general).
Hypothesis FS : file_solvable f.
Hypothesis D : describes m f.
Hypothesis E : to_general m = Got g.
Let S : mps_solvable m := read_solvable f m FS D.
Let OK : general_ok g := proj1 (convert_solvable m g S E).
Let MOK : mps_ok m := ms_ok m S.
Let rows_inj i j I J := row_at_inj f m (fs_rules f FS) D i j I J.
Let cols_inj i j I J := column_at_inj f m (fs_rules f FS) D i j I J.
Notation rn := (length (m_rows m)).
Notation cn := (length (m_columns m)).
Lemma sizes : g_rows g = rn /\ nr_vars g = cn /\ g_fixed g = 0 /\ g_objective g = fsense f.
Proof using FS D E. destruct (convert_got m MOK g E) as (EO & EF & ER & _ & EN & _). rewrite EO, (sense_agrees f m D). now repeat split. Qed.
Lemma total_rows (h : string -> Qc) : total (map h (constraint_names f)) = sum rn (fun i => h (row_at m i)).
Proof using D.
  unfold constraint_names. rewrite map_map, <- (total_perm _ _ (Permutation_map (fun r => h (row_name r)) (de_rows m f D))). rewrite (total_sum _ (mk_mrow "" KEqual)). reflexivity.
Qed.
Lemma total_columns (h : string -> Qc) : total (map h (column_names_of f)) = sum cn (fun j => h (column_at m j)).
Proof using D. unfold column_names_of. rewrite <- (de_columns m f D), !map_map. rewrite (total_sum _ (mk_mcolumn "" false [])). reflexivity. Qed.
Lemma file_row_value x i : (i < rn)%nat -> frow_value f x (row_at m i) = row_value g (point m x) i.
Proof using FS D E. intros I. rewrite (value_agrees f m (fs_rules f FS) D x i I). symmetry. exact (convert_value m MOK g _ i E). Qed.
Lemma file_cost x : fcost f x = gcost g (point m x).
Proof using FS D E. rewrite (cost_agrees f m (fs_rules f FS) D x). symmetry. exact (convert_cost m MOK g _ E). Qed.
Lemma file_row k r : In (Some k, r) (f_rows f) -> exists i, (i < rn)%nat /\ r = row_at m i /\ forall z, frow_holds f k r z <-> within (row_lower (row_type g i) (nthq (g_b g) i)) (row_upper (row_type g i) (nthq (g_b g) i)) z.
Proof using FS D E.
  intros R. apply (row_in f m D) in R. destruct R as (i & I & <- & <-). exists i. split; [assumption|]. split; [reflexivity|]. intros z.
  rewrite (holds_agrees f m (fs_rules f FS) D i z I). rewrite <- (convert_row m MOK g i z E (ms_ranges m S) I). apply rel_within. intros r. apply (gok_ranges g OK i r). now rewrite (proj1 sizes).
Qed.
Lemma file_column c : In c (column_names_of f) -> exists j, (j < cn)%nat /\ c = column_at m j /\ forall z, fallowed f c z <-> within (v_lower (var g j)) (v_upper (var g j)) z.
Proof using FS D E.
  intros C. apply (column_in f m D) in C. destruct C as (j & J & <-). exists j. split; [assumption|]. split; [reflexivity|]. intros z.
  rewrite (allowed_agrees f m (fs_rules f FS) D j z J). symmetry. exact (convert_bounds m MOK g j z E J).
Qed.
Lemma file_feasible x : ffeasible f x <-> gfeasible g (point m x).
Proof using FS D E. rewrite (feasible_agrees f m (fs_rules f FS) D x). symmetry. exact (convert_feasible m MOK g _ E (ms_ranges m S)). Qed.
Lemma named_agrees z : gfeasible g z -> ffeasible f (named m z) /\ fcost f (named m z) = gcost g z.
Proof using FS D E.
  intros F. rewrite (named_cost f m FS D z). split; [|symmetry; exact (convert_cost m MOK g _ E)]. apply (named_feasible f m FS D). now apply (convert_feasible m MOK g _ E (ms_ranges m S)).
Qed.
Lemma file_optimal x : foptimal f x -> goptimal g (point m x).
Proof using FS D E.
  intros [F M]. split; [now apply file_feasible|]. intros z Z. destruct (named_agrees z Z) as [FZ CZ]. destruct sizes as (_ & _ & _ & ->). specialize (M _ FZ). now rewrite CZ, file_cost in M.
Qed.
Lemma file_unbounded : funbounded f -> gunbounded g.
Proof using FS D E.
  intros [(x & F) U]. split; [exists (point m x); now apply file_feasible|]. intros bound. destruct (U bound) as (z & FZ & C). exists (point m z). split; [now apply file_feasible|]. destruct sizes as (_ & _ & _ & ->). now rewrite <- file_cost.
Qed.

Lemma certificate_by_name c (cost : valuation -> Qc) y v : (forall x, cost x = sum (nr_vars g) (fun j => c j * point m x j)) -> gproves g c y v -> exists yf df, fproves f cost yf df v.
Proof using FS D E.
  intros HC (rows & vars & HR & HV & HS). destruct sizes as (ER & EN & _ & _). rewrite ER in HR. rewrite ER, EN in HV, HS. rewrite EN in HC.
  set (d := fun j => c j - sum rn (fun i => y i * coefficient g i j)) in *.
  exists (by_name rn (row_at m) y), (by_name cn (column_at m) d), (by_name rn (row_at m) rows), (by_name cn (column_at m) vars). split; [|split; [|split]].
  - intros x. rewrite total_rows, total_columns, HC.
    rewrite (sum_ext rn _ (fun i => y i * row_value g (point m x) i)) by (intros i I; rewrite (by_name_at rn (row_at m) y i rows_inj I), (file_row_value x i I); reflexivity).
    rewrite (sum_ext cn (fun j => by_name cn (column_at m) d (column_at m j) * x (column_at m j)) (fun j => d j * point m x j)) by (intros j J; rewrite (by_name_at cn (column_at m) d j cols_inj J); reflexivity).
    unfold row_value. rewrite EN. rewrite (dot_assoc rn cn y (coefficient g) (point m x)). rewrite <- sum_plus. apply sum_ext. intros j J. unfold d. ring.
  - intros k r R z Z. destruct (file_row k r R) as (i & I & -> & H). apply H in Z. rewrite (by_name_at rn (row_at m) rows i rows_inj I), (by_name_at rn (row_at m) y i rows_inj I). exact (least_le _ _ _ _ _ (HR i I) Z).
  - intros n C z Z. destruct (file_column n C) as (j & J & -> & H). apply H in Z. rewrite (by_name_at cn (column_at m) vars j cols_inj J), (by_name_at cn (column_at m) d j cols_inj J). exact (least_le _ _ _ _ _ (HV j J) Z).
  - rewrite total_rows, total_columns, <- HS. f_equal; apply sum_ext; intros i I; [exact (by_name_at rn (row_at m) rows i rows_inj I)|exact (by_name_at cn (column_at m) vars i cols_inj I)].
Qed.
Lemma file_optimum_certified x : foptimal f x -> exists y d, fproves_bound f y d (fcost f x).
Proof using FS D E.
  intros H. destruct (goptimal_certified g OK _ (file_optimal x H)) as (y & P). unfold gproves_bound in P. rewrite <- file_cost in P. destruct sizes as (_ & _ & EF & EO). rewrite EF in P.
  replace (fcost f x - 0) with (fcost f x) in P by ring. rewrite EO in P. refine (certificate_by_name _ _ y _ _ P). intros z. rewrite file_cost, <- EO. rewrite <- gcost_toward, EF. f_equal. ring.
Qed.
Lemma file_infeasible_certified : (forall x, ~ ffeasible f x) -> exists y d, fproves_infeasible f y d.
Proof using FS D E.
  intros NF. destruct (ginfeasible_certified g OK) as (y & v & V & P).
  - intros z Z. apply (NF (named m z)). now apply named_agrees.
  - destruct (certificate_by_name _ (fun _ => 0) y v (fun x => eq_sym (sum_zero _ _ (fun j _ => Qcmult_0_l _))) P) as (yf & df & Q). exists yf, df, v. now split.
Qed.
Lemma within_move lo hi z s : within lo hi z -> (lo <> None -> 0 <= s) -> (hi <> None -> s <= 0) -> within lo hi (z + s).
Proof. intros [A B] P N. split; intros b Eb; [specialize (A b Eb); specialize (P ltac:(congruence))|specialize (B b Eb); specialize (N ltac:(congruence))]; qlra. Qed.
Lemma scale_sign t s : 0 <= t -> (0 <= s -> 0 <= t * s) /\ (s <= 0 -> t * s <= 0).
Proof. intros T. split; intros H; [now apply Qc_mul_nonneg|]. pose proof (Qc_mul_nonneg t (- s) T ltac:(qlra)). qlra. Qed.
Lemma file_unbounded_certified : funbounded f -> exists dir, fray f dir.
Proof using FS D E.
  intros U. destruct (gunbounded_certified g OK (file_unbounded U)) as (d & DR & DV & DC). destruct sizes as (ER & EN & EF & EO). rewrite ER in DR. rewrite EN in DV.
  assert (PN : forall j, (j < cn)%nat -> point m (named m d) j = d j) by (intros j J; exact (named_point f m FS D d j J)).
  assert (RV : forall i, row_value g (point m (named m d)) i = row_value g d i) by (intros i; unfold row_value; rewrite EN; apply sum_ext; intros j J; now rewrite PN).
  exists (named m d). split; [|split].
  - intros k r R z t Z T. destruct (file_row k r R) as (i & I & -> & H). apply H. apply H in Z. rewrite (file_row_value _ i I), RV. destruct (DR i I) as [A B]. apply within_move; [exact Z|intros Q; apply scale_sign; [exact T|now apply A]|intros Q; apply scale_sign; [exact T|now apply B]].
  - intros c C z t Z T. destruct (file_column c C) as (j & J & -> & H). apply H. apply H in Z. change (named m d (column_at m j)) with (point m (named m d) j). rewrite PN by assumption. destruct (DV j J) as [A B]. apply within_move; [exact Z|intros Q; apply scale_sign; [exact T|now apply A]|intros Q; apply scale_sign; [exact T|now apply B]].
  - rewrite file_cost, <- EO. replace (gcost g (point m (named m d))) with (gcost g (point m (named m d)) - g_fixed g) by (rewrite EF; ring). rewrite gcost_toward. rewrite EN in DC |- *. rewrite (sum_ext cn _ (fun j => toward (g_objective g) (v_cost (var g j)) * d j)) by (intros j J; now rewrite PN). exact DC.
Qed.
End File.

(** ** Texts *)
Section Texts.
Variable parse : string -> out mps.
Let reads (text : string) (f : file) : Prop := exists m, parse text = Got m /\ describes m f.
Lemma every_optimum_certified f text x : file_solvable f -> reads text f -> foptimal f x -> exists y d, fproves_bound f y d (fcost f x).
Proof. intros FS T H. destruct (with_solved parse f text FS T) as (m & g & D & S & G & _). exact (file_optimum_certified f m g FS D G x H). Qed.
Lemma every_infeasible_certified f text : file_solvable f -> reads text f -> (forall x, ~ ffeasible f x) -> exists y d, fproves_infeasible f y d.
Proof. intros FS T H. destruct (with_solved parse f text FS T) as (m & g & D & S & G & _). exact (file_infeasible_certified f m g FS D G H). Qed.
Lemma every_unbounded_certified f text : file_solvable f -> reads text f -> funbounded f -> exists dir, fray f dir.
Proof. intros FS T H. destruct (with_solved parse f text FS T) as (m & g & D & S & G & _). exact (file_unbounded_certified f m g FS D G H). Qed.
Lemma with_optimum_certified f text r n fuel s : file_solvable f -> reads text f -> solve_with parse r n fuel text = Got (Ok (Solved_to s)) ->
  ffeasible f (answer_at s) /\ exists y d, fproves_bound f y d (fcost f (answer_at s)).
Proof. intros FS T E. destruct (with_optimum parse f text r n fuel s FS T E) as (_ & O & _). split; [apply O|now apply (every_optimum_certified f text)]. Qed.
Lemma with_none_certified f text r n fuel : file_solvable f -> reads text f -> solve_with parse r n fuel text = Got (Ok NoSolution) -> exists y d, fproves_infeasible f y d.
Proof. intros FS T E. apply (every_infeasible_certified f text FS T). exact (with_none parse f text r n fuel FS T E). Qed.
Lemma with_unbounded_certified f text r n fuel : file_solvable f -> reads text f -> solve_with parse r n fuel text = Got (Ok NoBound) -> exists dir, fray f dir.
Proof. intros FS T E. apply (every_unbounded_certified f text FS T). exact (with_unbounded parse f text r n fuel FS T E). Qed.
End Texts.
