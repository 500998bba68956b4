(** * Proofs: the number of steps is known in advance *)
From Verif Require Import SpecGeneral SpecSizes SparseP KindP StandardP StandardQ StandardR MatrixDataP PipelineP SizesP GeneralQ SolverP PreSafe SpecSteps SpecFile SpecMps MpsP MpsQ ConvertP TextSolveP TextPresolve TextPresolveP SpecSides SidesP PackP SpecFSides FSidesP FSizeP FuelP SafeRun.
From Coq Require Import Permutation.
From Verif Require Export PreSteps.
Local Open Scope Qc_scope.
Local Open Scope nat_scope.

(** ** How many variables there are, and how many of them have an upper bound *)
Record counted (k r : nat) (g : general) (l : nat) : Prop := mk_counted {
  ct_late : forall j, k <= j -> v_upper (var g j) = None;
  ct_rows : g_rows g = r;
  ct_vars : nr_vars g = l }.
Lemma counted_set k r g l vars v j fixed cols b orig from types obj :
  counted k r g l -> set_index (g_vars g) j v = Ok vars -> (v_upper (var g j) = None -> v_upper v = None) ->
  counted k r (mk_general obj fixed (g_rows g) cols types b vars orig from) l.
Proof.
  intros [A B C] E H. apply Base.set_index_ok in E. destruct E as [L ->]. split; cbn [g_rows g_vars]; [|assumption|unfold nr_vars in *; cbn; now rewrite upd_length].
  intros i Li. unfold var. cbn [g_vars]. rewrite upd_nth by assumption. destruct (Nat.eqb_spec i j) as [->|_]; [|now apply A]. apply H. now apply A.
Qed.
Lemma index_var g j v : index (g_vars g) j = Ok v -> var g j = v.
Proof. intros E. apply index_ok in E. unfold var. now apply nth_error_nth. Qed.
Lemma flip_counted k r g l j g' : counted k r g l -> flip_one g j = Ok g' -> counted k r g' l.
Proof.
  intros H E. unfold flip_one in E. destruct (index (g_vars g) j) as [v| |] eqn:V; cbn [bind] in E; try discriminate.
  destruct (v_lower v); [now injection E as <-|]. destruct (v_upper v) as [u|] eqn:U; [|now injection E as <-].
  inv_ok. eapply counted_set; [eassumption|eassumption|reflexivity].
Qed.
Lemma shift_counted k r g l j g' : counted k r g l -> shift_one g j = Ok g' -> counted k r g' l.
Proof.
  intros H E. unfold shift_one in E. destruct (index (g_vars g) j) as [v| |] eqn:V; cbn [bind] in E; try discriminate.
  destruct (v_lower v); [|now injection E as <-]. inv_ok. eapply counted_set; [eassumption|eassumption|]. rewrite (index_var _ _ _ V). cbn. intros ->. reflexivity.
Qed.
Lemma transforms_counted k r l js : forall g g', counted k r g l -> foldM transform_one js g = Ok g' -> counted k r g' l.
Proof.
  induction js as [|j js IH]; intros g g' H E; cbn [foldM] in E; [now injection E as <-|]. apply bind_ok in E. destruct E as (g1 & E1 & E).
  apply (IH g1 g'); [|assumption]. unfold transform_one in E1. apply bind_ok in E1. destruct E1 as (g0 & E0 & E1). apply (shift_counted k r g0 l j); [|assumption]. now apply (flip_counted k r g l j).
Qed.
Lemma split_counted k r l g j g' : k <= l -> counted k r g l -> split_one g j = Ok g' -> counted k r g' (S l).
Proof.
  intros KL [A B C] E. unfold split_one in E. apply bind_ok in E. destruct E as (o & _ & E). apply bind_ok in E. destruct E as (e & _ & E). apply bind_ok in E. destruct E as (orig & _ & E).
  apply bind_ok in E. destruct E as (v & V & E). apply bind_ok in E. destruct E as (vars & S & E). injection E as <-. apply Base.set_index_ok in S. destruct S as [L ->].
  unfold nr_vars in *. split; cbn [g_rows g_vars]; [|assumption|unfold nr_vars; cbn; rewrite upd_length, app_length; cbn; lia].
  intros i Li. unfold var. cbn [g_vars]. rewrite upd_nth by assumption. destruct (Nat.eqb_spec i j) as [->|_].
  - cbn. rewrite <- (index_var _ _ _ V). now apply A.
  - destruct (Nat.lt_ge_cases i (length (g_vars g))) as [L1|L1]; [rewrite app_nth1 by assumption; now apply A|]. rewrite app_nth2 by assumption. destruct (i - length (g_vars g)) as [|[|]]; reflexivity.
Qed.
Lemma splits_counted k r js : forall l g g', k <= l -> counted k r g l -> foldM split_one js g = Ok g' -> counted k r g' (l + length js).
Proof.
  induction js as [|j js IH]; intros l g g' KL H E; cbn [foldM length] in *; [injection E as <-; now rewrite Nat.add_0_r|]. apply bind_ok in E. destruct E as (g1 & E1 & E).
  rewrite Nat.add_succ_r. apply (IH (S l) g1 g'); [lia| |assumption]. now apply (split_counted k r l g j).
Qed.
Lemma filterM_short {A} (f : A -> res bool) : forall l l', filterM f l = Ok l' -> length l' <= length l.
Proof.
  induction l as [|a l IH]; intros l' E; cbn [filterM] in E; [injection E as <-; cbn; lia|]. apply bind_ok in E. destruct E as (b & _ & E). apply bind_ok in E. destruct E as (t & E1 & E). injection E as <-.
  apply IH in E1. destruct b; cbn; lia.
Qed.
Lemma standardize_counted g g' c : general_ok g -> standardize g = Ok (g', c) -> exists l, l <= 2 * nr_vars g /\ counted (nr_vars g) (g_rows g) g' l.
Proof.
  intros P E. unfold standardize in E. apply bind_ok in E. destruct E as (g1 & E1 & E). apply bind_ok in E. destruct E as (g2 & E2 & E).
  unfold transform_variables in E1. apply bind_ok in E1. destruct E1 as (g0 & E0 & E1). unfold split_free in E0. apply bind_ok in E0. destruct E0 as (dup & ED & E0).
  apply bind_ok in E0. destruct E0 as (cols & _ & E0). apply filterM_short in ED. unfold range in ED. rewrite seq_length, Nat.sub_0_r, (gok_cols _ P) in ED.
  exists (nr_vars g + length dup). split; [lia|]. eapply splits_counted in E0; [|apply le_n|].
  2:{ split; [|reflexivity|reflexivity]. intros j L. unfold var. cbn [g_vars]. now rewrite nth_overflow. }
  eapply transforms_counted in E1; [|exact E0]. destruct E1 as [A B C].
  assert (H2 : counted (nr_vars g) (g_rows g) g2 (nr_vars g + length dup)).
  { unfold make_b_non_negative in E2. apply bind_ok in E2. destruct E2 as (st & _ & E2). injection E2 as <-. now split. }
  destruct H2 as [A2 B2 C2]. unfold reorder in E. destruct (number_types _ _) as [ks c']. apply bind_ok in E. destruct E as (nb & _ & E). apply bind_ok in E. destruct E as (b & _ & E).
  apply bind_ok in E. destruct E as (cs & _ & E). injection E as <- <-. unfold make_minimization. destruct (g_objective g2); [now split|]. split; cbn [g_rows g_vars]; [|assumption|unfold nr_vars in *; cbn; now rewrite map_length].
  intros j L. specialize (A2 j L). unfold var in *. cbn [g_vars]. destruct (Nat.lt_ge_cases j (length (g_vars g2))) as [Lj|Lj]; [|rewrite nth_overflow by (now rewrite map_length); reflexivity].
  rewrite (nth_indep _ no_variable (negate_cost no_variable)) by (now rewrite map_length). rewrite map_nth. exact A2.
Qed.
Lemma steps_mono m n m' n' : m' <= m -> n' <= n -> search_steps m' n' <= search_steps m n.
Proof.
  intros Hm Hn. unfold search_steps. destruct (Nat.eq_dec (m + n) 0) as [Z|Z]; [assert (m' = m /\ n' = n) as [-> ->] by lia; lia|].
  apply Nat.le_trans with ((4 * (m + n)) ^ (2 * m' + n')); [apply Nat.pow_le_mono_l; lia|apply Nat.pow_le_mono_r; lia].
Qed.
Lemma steps_vars m n : n <= search_steps m n.
Proof.
  unfold search_steps. destruct (Nat.eq_dec (2 * m + n) 0) as [Z|Z]; [lia|]. apply Nat.le_trans with ((4 * (m + n)) ^ 1); [rewrite Nat.pow_1_r; lia|apply Nat.pow_le_mono_r; lia].
Qed.
Lemma provider_steps g g' c d : general_ok g -> standardize g = Ok (g', c) -> standard_shape g' c -> derived g' c d ->
  (p_rows (md_provider d) + p_cols (md_provider d)) ^ p_rows (md_provider d) <= search_steps (g_rows g) (nr_vars g).
Proof.
  intros P ES SH D. destruct (standardize_counted g g' c P ES) as (l & L & [A B C]).
  assert (NB : length (md_bounds d) <= nr_vars g).
  { rewrite <- (seq_length (nr_vars g) 0). apply NoDup_incl_length; [exact (increasing_NoDup _ _ (dv_inc _ _ _ D))|].
    intros j Hj. apply (dv_upper _ _ _ D) in Hj. destruct Hj as [_ [u Hu]]. apply in_seq. destruct (Nat.lt_ge_cases j (nr_vars g)) as [Lj|Lj]; [lia|]. rewrite (A j Lj) in Hu. discriminate. }
  pose proof (ss_rows _ _ SH) as R. pose proof (r_total g' c d D) as RT. pose proof (c_total g' c d D) as CT. change (md_nr_columns d) with (p_cols (md_provider d)) in CT.
  rewrite RT, CT. unfold search_steps. set (m := g_rows g) in *. set (n := nr_vars g) in *.
  set (x := n_equal c + n_range c + n_less c + n_greater c + length (md_bounds d) + n_range c). set (y := nr_vars g' + _ + _ + _ + _ + _).
  assert (X : x <= 2 * m + n) by (unfold x; lia). assert (XY : x + y <= 4 * (m + n)) by (unfold x, y; lia). clearbody x y.
  destruct (Nat.eq_dec (m + n) 0) as [Z|Z]; [assert (x = 0 /\ m = 0 /\ n = 0) as (-> & -> & ->) by lia; cbn; lia|].
  apply Nat.le_trans with ((4 * (m + n)) ^ x); [now apply Nat.pow_le_mono_l|apply Nat.pow_le_mono_r; lia].
Qed.

(** ** Values of variables that were removed *)
Definition place (rank : nat -> nat) (n o : nat) : nat := length (filter (fun k => Nat.ltb (rank k) (rank o)) (range 0 n)).
Lemma filter_less {A} (p q : A -> bool) l : (forall x, p x = true -> q x = true) -> length (filter p l) <= length (filter q l).
Proof.
  intros H. induction l as [|a l IH]; cbn; [lia|]. destruct (p a) eqn:E; [rewrite (H _ E); cbn; lia|]. destruct (q a); cbn; lia.
Qed.
Lemma filter_fewer {A} (p q : A -> bool) l x : (forall x, p x = true -> q x = true) -> In x l -> p x = false -> q x = true -> length (filter p l) < length (filter q l).
Proof.
  intros H. induction l as [|a l IH]; intros I N Y; [destruct I|]. cbn. destruct I as [->|I].
  - rewrite N, Y. cbn. pose proof (filter_less p q l H). lia.
  - specialize (IH I N Y). destruct (p a) eqn:E; [rewrite (H _ E); cbn; lia|]. destruct (q a); cbn; lia.
Qed.
Lemma place_less rank n j o : j < n -> rank j < rank o -> place rank n j < place rank n o.
Proof.
  intros L R. apply (filter_fewer _ _ _ j).
  - intros k K. apply Nat.ltb_lt in K. apply Nat.ltb_lt. lia.
  - apply In_range. lia.
  - apply Nat.ltb_irrefl.
  - now apply Nat.ltb_lt.
Qed.
Lemma place_small rank n o : o < n -> place rank n o < n.
Proof.
  intros L. apply Nat.lt_le_trans with (length (filter (fun _ => true) (range 0 n))).
  - apply (filter_fewer _ _ _ o); [reflexivity|apply In_range; lia|apply Nat.ltb_irrefl|reflexivity].
  - rewrite filter_short. unfold range. rewrite seq_length. lia.
Qed.
Lemma full_solution_within g z fuel : general_ok g -> wfs (nr_vars g) z -> acyclic (g_orig g) -> length (g_orig g) <= fuel -> exists s, full_solution fuel g z = Ok s.
Proof.
  intros P W [rank R] Lf. unfold full_solution.
  destruct (mapM_total (fun '(j, x) => let* v := index (g_vars g) j in Ok (x * v_cost v)%Qc) z) as [ys Ey].
  { intros [j x] Hj. rewrite (index_nth _ _ no_variable) by exact (wfs_In_lt _ _ _ _ W Hj). eexists; reflexivity. }
  rewrite Ey. cbn [bind].
  destruct (mapM_total (value_with_bfs fuel (g_orig g) (reshift (g_vars g) z)) (range 0 (length (g_orig g)))) as [vs Ev].
  { intros o Ho. apply In_range in Ho. apply (value_returns _ _ (place rank (length (g_orig g)))); [|pose proof (place_small rank (length (g_orig g)) o); lia|lia].
    intros o' name c l j a E H. destruct (R o' name c l j a E H) as [L1 L2]. split; [assumption|now apply place_less]. }
  rewrite Ev. eexists; reflexivity.
Qed.

(** ** Solving *)
Lemma solve_within r g fuel : general_ok g -> acyclic (g_orig g) ->
  (forall g' c d, standardize g = Ok (g', c) -> general_ok g' -> standard_shape g' c -> derived g' c d -> derive_matrix_data g' c = Ok d -> sizes_ok (ops r) (laws r) (md_provider d)) ->
  search_steps (g_rows g) (nr_vars g) < fuel -> length (g_orig g) <= fuel -> exists a, solve_general r FirstProfitable fuel g = Ok a.
Proof.
  intros P A SZ L1 L2. unfold solve_general. destruct (standardize_spec g P) as (g' & c & F & G & ES & P' & SH & ST).
  rewrite ES. cbn [bind fst snd]. destruct (derive_spec g' c P' SH) as (d & ED & D). rewrite ED. cbn [bind].
  pose proof (md_provider_ok g' c d P' SH D) as PO. pose proof (provider_steps g g' c d P ES SH D) as PS.
  destruct (run_first_profitable_within r _ fuel PO (SZ g' c d ES P' SH D ED)) as [res H]; [lia|]. rewrite H. cbn [bind]. destruct res as [|z|]; [eexists; reflexivity| |eexists; reflexivity].
  destruct (run_optimum _ _ fuel _ z PO H) as [O W]. destruct (reconstruct_spec g' c d P' D z W) as [W' R].
  destruct (full_solution_within g' (reconstruct d z) fuel P' W' (standardized_acyclic _ _ _ _ ST A)) as [s ->]; [|eexists; reflexivity].
  rewrite <- (map_length fst (g_orig g')), (sd_names _ _ _ _ ST), map_length. assumption.
Qed.
Lemma rows_within g fuel : general_ok g -> acyclic (g_orig g) -> search_steps (g_rows g) (nr_vars g) < fuel -> length (g_orig g) <= fuel -> exists a, solve_general UseRows FirstProfitable fuel g = Ok a.
Proof. intros P A. apply solve_within; [assumption..|]. intros. apply sizes_rows. discriminate. Qed.
Lemma lu_within g fuel : general_ok g -> acyclic (g_orig g) -> 2 <= inequality_rows g -> search_steps (g_rows g) (nr_vars g) < fuel -> length (g_orig g) <= fuel -> exists a, solve_general UseLU FirstProfitable fuel g = Ok a.
Proof.
  intros P A LL. apply solve_within; [assumption..|]. intros g' c d ES P' SH D ED. destruct (two_sizes g g' c d P ES P' SH D ED LL) as [S1 S2]. now apply sizes_lu.
Qed.
Lemma fresh_rows_within g fuel : general_ok g -> fresh g -> search_steps (g_rows g) (nr_vars g) < fuel -> exists a, solve_general UseRows FirstProfitable fuel g = Ok a.
Proof.
  intros P F L. apply rows_within; [assumption|now apply fresh_acyclic|assumption|]. destruct F as [-> _]. pose proof (steps_vars (g_rows g) (nr_vars g)). lia.
Qed.
Lemma fresh_lu_within g fuel : general_ok g -> fresh g -> 2 <= inequality_rows g -> search_steps (g_rows g) (nr_vars g) < fuel -> exists a, solve_general UseLU FirstProfitable fuel g = Ok a.
Proof.
  intros P F LL L. apply lu_within; [assumption|now apply fresh_acyclic|assumption|assumption|]. destruct F as [-> _]. pose proof (steps_vars (g_rows g) (nr_vars g)). lia.
Qed.

(** ** Presolving and solving *)
Lemma remove_short {A} (l : list A) rm : forall k, length (remove_indices_from k l rm) <= length l.
Proof. induction l as [|a l IH]; intros k; cbn; [lia|]. specialize (IH (S k)). destruct (memb k rm); cbn; lia. Qed.
Lemma numbered_length {A} (l : list A) : forall k, length (number_from k l) = length l.
Proof. induction l as [|a l IH]; intros k; cbn; [reflexivity|]. now rewrite IH. Qed.
Lemma presolve_smaller fuel g g' : presolve fuel g = Go g' -> g_rows g' <= g_rows g /\ nr_vars g' <= nr_vars g.
Proof.
  unfold presolve. intros E. apply pbind_go in E. destruct E as (u & _ & E). apply pbind_go in E. destruct E as (g1 & E1 & E). apply pbind_go in E. destruct E as (g2 & E2 & E). apply pbind_go in E. destruct E as (g3 & E3 & E).
  destruct (get_solution g3); [discriminate|]. injection E as <-.
  destruct (values_that_remain g u) as [h1| |] eqn:V; cbn [lift] in E1; try discriminate. injection E1 as ->.
  destruct (remove_rows_and_columns g1 _ _) as [h2| |] eqn:R; cbn [lift] in E2; try discriminate. injection E2 as ->.
  destruct (solution_where_possible fuel g2) as [h3| |] eqn:S; cbn [lift] in E3; try discriminate. injection E3 as ->.
  unfold values_that_remain in V. apply bind_ok in V. destruct V as (orig & _ & V). injection V as <-.
  unfold remove_rows_and_columns in R. apply bind_ok in R. destruct R as (from & _ & R). apply bind_ok in R. destruct R as (orig' & _ & R). destruct (Nat.ltb _ _); [discriminate|]. injection R as <-.
  unfold solution_where_possible in S. apply bind_ok in S. destruct S as (orig3 & _ & S). injection S as <-. unfold nr_vars. cbn [g_rows g_vars]. split; [lia|].
  eapply Nat.le_trans; [apply remove_short|]. now rewrite map_length, numbered_length.
Qed.
Lemma presolve_within g fuel : general_ok g -> fresh g -> safe_run fuel g = true -> presolve_steps (g_rows g) (nr_vars g) <= fuel -> presolve fuel g <> PFuel.
Proof.
  intros G F S L. apply presolve_enough; [assumption..|now apply changes_within|]. unfold presolve_steps in L. nia.
Qed.
Lemma both_within g fuel : general_ok g -> fresh g -> safe_run fuel g = true -> presolve_steps (g_rows g) (nr_vars g) <= fuel -> search_steps (g_rows g) (nr_vars g) < fuel ->
  exists a, presolve_and_solve UseRows FirstProfitable fuel g = Ok a.
Proof.
  intros G F S L1 L2. pose proof (presolve_within g fuel G F S L1) as N. pose proof (presolve_spec fuel g G F S) as P. unfold presolve_and_solve.
  destruct (presolve fuel g) as [g'|v| |] eqn:E; cbn [safe_outcome] in P; try contradiction; [|destruct v; eexists; reflexivity].
  destruct (presolve_smaller fuel g g' E) as [M1 M2]. apply rows_within; [apply (fa_ok _ _ P)|apply (fa_acyclic _ _ P)| |].
  - pose proof (steps_mono (g_rows g) (nr_vars g) (g_rows g') (nr_vars g') M1 M2). lia.
  - rewrite <- (map_length fst), (fa_names _ _ P), map_length. destruct F as [-> _]. pose proof (steps_vars (g_rows g) (nr_vars g)). lia.
Qed.

(** ** The same answer from then on *)
Lemma settled {A} (f : nat -> res A) (P : nat -> Prop) k : (forall i j, i <= j -> more (f i) (f j)) -> (forall i, k < i -> P i -> exists a, f i = Ok a) -> (forall i, P i) -> exists a, forall i, k < i -> f i = Ok a.
Proof.
  intros M H PA. destruct (H (S k) ltac:(lia) (PA _)) as [a E]. exists a. intros i L. rewrite (M (S k) i L); congruence.
Qed.
Lemma rows_settled g : general_ok g -> fresh g -> exists a, forall fuel, search_steps (g_rows g) (nr_vars g) < fuel -> solve_general UseRows FirstProfitable fuel g = Ok a.
Proof.
  intros P F. apply (settled (fun fuel => solve_general UseRows FirstProfitable fuel g) (fun _ => True)); [intros; now apply more_general| |easy]. intros i L _. now apply fresh_rows_within.
Qed.
Lemma lu_settled g : general_ok g -> fresh g -> 2 <= inequality_rows g -> exists a, forall fuel, search_steps (g_rows g) (nr_vars g) < fuel -> solve_general UseLU FirstProfitable fuel g = Ok a.
Proof.
  intros P F LL. apply (settled (fun fuel => solve_general UseLU FirstProfitable fuel g) (fun _ => True)); [intros; now apply more_general| |easy]. intros i L _. now apply fresh_lu_within.
Qed.
Lemma both_settled g : general_ok g -> fresh g -> safe g -> exists a, forall fuel, both_steps (g_rows g) (nr_vars g) < fuel -> presolve_and_solve UseRows FirstProfitable fuel g = Ok a.
Proof.
  intros P F S. apply (settled (fun fuel => presolve_and_solve UseRows FirstProfitable fuel g) (fun i => safe_run i g = true)); [intros; now apply more_presolve_and_solve| |exact S].
  intros i L SR. unfold both_steps in L. apply both_within; [assumption..|lia|lia].
Qed.
Lemma sided_settled g (Q : solution -> Prop) : general_ok g -> fresh g -> one_sided g -> (exists fuel0 s, (forall fuel, (fuel0 <= fuel)%nat -> presolve_and_solve UseRows FirstProfitable fuel g = Ok (Solved_to s)) /\ Q s) ->
  exists s, (forall fuel, both_steps (g_rows g) (nr_vars g) < fuel -> presolve_and_solve UseRows FirstProfitable fuel g = Ok (Solved_to s)) /\ Q s.
Proof.
  intros P F SD (f0 & s & E & H). destruct (both_settled g P F (one_sided_safe g P SD)) as [a A]. set (f := both_steps (g_rows g) (nr_vars g)) in *. exists s. split; [|assumption].
  assert (X : a = Solved_to s) by (specialize (A (f0 + S f) ltac:(lia)); specialize (E (f0 + S f) ltac:(lia)); congruence). now subst a.
Qed.
Lemma packing_settled g : general_ok g -> fresh g -> packing g -> priced g -> exists s,
  (forall fuel, both_steps (g_rows g) (nr_vars g) < fuel -> presolve_and_solve UseRows FirstProfitable fuel g = Ok (Solved_to s)) /\
  map fst (s_values s) = map fst (g_orig g) /\ goptimal g (solution_point s) /\ (g_objective g = Minimize -> s_objective s = gcost g (solution_point s)).
Proof.
  intros P F K C. apply (sided_settled g (fun s => map fst (s_values s) = map fst (g_orig g) /\ goptimal g (solution_point s) /\ (g_objective g = Minimize -> s_objective s = gcost g (solution_point s))) P F (packing_sided g K C)). exact (packing_solved g P F K C).
Qed.
Lemma covering_settled g : general_ok g -> fresh g -> covering g -> exists s,
  (forall fuel, both_steps (g_rows g) (nr_vars g) < fuel -> presolve_and_solve UseRows FirstProfitable fuel g = Ok (Solved_to s)) /\
  map fst (s_values s) = map fst (g_orig g) /\ goptimal g (solution_point s) /\ s_objective s = gcost g (solution_point s).
Proof.
  intros P F K. apply (sided_settled g (fun s => map fst (s_values s) = map fst (g_orig g) /\ goptimal g (solution_point s) /\ s_objective s = gcost g (solution_point s)) P F (covering_sided g K)). exact (covering_solved g P F K).
Qed.
Lemma safe_decided g : safe g <-> safe_run (presolve_steps (g_rows g) (nr_vars g)) g = true.
Proof. split; [intros S; apply S|]. apply safe_check. now apply changes_within. Qed.

(** ** Files *)
Section With.
Variable parse : string -> out mps.
Let reads (text : string) (f : file) : Prop := exists m, parse text = Got m /\ describes m f.
Lemma read_counts f m g : describes m f -> to_general m = Got g -> g_rows g = length (constraint_rows f) /\ nr_vars g = length (columns_of f).
Proof.
  intros D G. destruct (convert_got m (de_ok m f D) g G) as (_ & _ & ER & _ & EN & _). split.
  - rewrite ER. exact (Permutation_length (de_rows m f D)).
  - rewrite EN, <- (de_columns m f D), map_length. reflexivity.
Qed.
Lemma with_settled f text : file_solvable f -> reads text f ->
  exists a, forall fuel, search_steps (length (constraint_rows f)) (length (columns_of f)) < fuel -> solve_with parse UseRows FirstProfitable fuel text = Got (Ok a).
Proof.
  intros FS T. destruct (with_solved parse f text FS T) as (m & g & D & S & G & R). destruct (read_counts f m g D G) as [E1 E2]. rewrite <- E1, <- E2.
  destruct (convert_solvable m g S G) as [P F]. destruct (rows_settled g P F) as [a A]. exists a. intros fuel L. now rewrite R, A.
Qed.
Lemma pre_with_settled f text : file_solvable f -> reads text f -> (forall fuel, safe_with parse fuel text = true) ->
  exists a, forall fuel, both_steps (length (constraint_rows f)) (length (columns_of f)) < fuel -> presolve_with parse UseRows FirstProfitable fuel text = Got (Ok a).
Proof.
  intros FS T SF. destruct (pre_with_solved parse f text FS T) as (m & g & D & S & G & P & F & R & Q). destruct (read_counts f m g D G) as [E1 E2]. rewrite <- E1, <- E2 in *.
  destruct (both_settled g P F) as [a A]; [intros fuel; now rewrite <- Q|]. exists a. intros fuel L. now rewrite R, A.
Qed.
Lemma sided_with_settled f text : file_solvable f -> reads text f -> file_sided f -> exists s,
  (forall fuel, both_steps (length (constraint_rows f)) (length (columns_of f)) < fuel -> presolve_with parse UseRows FirstProfitable fuel text = Got (Ok (Solved_to s))) /\
  map fst (s_values s) = map fst (columns_of f) /\ foptimal f (answer_at s) /\ (fsense f = Minimize -> s_objective s = fcost f (answer_at s)).
Proof.
  intros FS T K. destruct (pre_with_settled f text FS T) as [a A]; [intros fuel; now apply (with_sided_safe parse f)|]. destruct (with_sided_solved parse f text FS T K) as (f0 & s & E & H). exists s. split; [|assumption].
  set (k := both_steps _ _) in *. assert (X : a = Solved_to s) by (specialize (A (f0 + S k) ltac:(lia)); specialize (E (f0 + S k) ltac:(lia)); congruence). now subst a.
Qed.
End With.
