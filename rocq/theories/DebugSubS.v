(** * A debug build that gives an answer gives the answer of a release build: the solver *)
From Verif Require Export DebugSub.
Local Open Scope Qc_scope.

(** the operations of a basis inverse in a debug build, below those in a release build *)
Record ops_sub (O : BIOps) (D : DOps O) : Prop := mk_ops_sub {
  os_identity : forall m, sub (d_identity D m) (bi_identity O m);
  os_invert : forall cols, sub (d_invert D cols) (bi_invert O cols);
  os_change : forall i p cc, sub (d_change D i p cc) (bi_change O i p cc);
  os_left : forall i a, sub (d_left D i a) (bi_left O i a);
  os_right : forall i a, sub (d_right D i a) (bi_right O i a);
  os_elem : forall i r a, sub (d_elem D i r a) (bi_elem O i r a);
  os_row : forall i r, sub (d_row D i r) (bi_row O i r);
  os_remove : match d_remove D, bi_remove O with
              | None, None => True
              | Some f, Some g => forall i rm, sub (f i rm) (g i rm)
              | _, _ => False
              end
}.
Lemma LU_sub : ops_sub LU LU_debug.
Proof. constructor; cbn; [intros; apply sub_refl|apply sub_lu_invert|apply sub_lu_change|apply sub_lu_left|apply sub_lu_right|apply sub_lu_elem|apply sub_lu_row|exact I]. Qed.
Lemma BIR_sub : ops_sub BIR BIR_debug.
Proof. constructor; cbn; [apply sub_bir_identity|apply sub_bir_invert|apply sub_bir_change|apply sub_bir_left|apply sub_bir_right|apply sub_bir_elem|intros; apply sub_refl|apply sub_bir_remove]. Qed.
Lemma debug_ops_sub r : ops_sub (ops r) (debug_ops r).
Proof. destruct r; [apply LU_sub|apply BIR_sub] || (destruct r; [apply BIR_sub|apply LU_sub]). Qed.

Lemma sub_slice l : sub (slice_iter l) (Ok l). Proof. unfold slice_iter. asks. Qed.
Lemma sub_constant v n : sub (dense_constant v n) (Ok (repeat v n)). Proof. unfold dense_constant. asks. Qed.
Lemma sub_dense d n : sub (dense_new d n) (Ok d). Proof. unfold dense_new. asks. Qed.
Lemma sub_dense_remove d rm : sub (dense_remove d rm) (Ok (remove_indices d rm)). Proof. unfold dense_remove. asks. Qed.

Section Solver.
Variable O : BIOps.
Variable D : DOps O.
Hypothesis S : ops_sub O D.

(** ** Carry *)
Lemma sub_create_fully b : sub (create_fully_d O D b) (create_fully O b).
Proof using S. unfold create_fully_d, create_fully. eapply sub_same; [apply sub_constant|]. eapply sub_same; [apply sub_dense|]. next; [apply (os_identity O D S)|]. apply sub_refl. Qed.
Lemma sub_create_partially arts real b basis : sub (create_partially_d O D arts real b basis) (create_partially O arts b basis).
Proof using S. unfold create_partially_d, create_partially. ask. next. eapply sub_same; [apply sub_dense|]. eapply sub_same; [apply sub_dense|]. next; [apply (os_identity O D S)|]. apply sub_refl. Qed.
Lemma sub_minus_pi i n cost basis : sub (create_minus_pi_d O D i n cost basis) (create_minus_pi O i n cost basis).
Proof using S.
  unfold create_minus_pi_d, create_minus_pi, unit_columns. apply sub_assert. intros E. apply Nat.eqb_eq in E. rewrite <- E. ask. next; [apply sub_mapM; intros j; next; [apply (os_left O D S)|apply sub_refl]|]. apply sub_refl.
Qed.
Lemma sub_update_b b p col len : sub (update_b_d b p col len) (update_b b p col).
Proof using. unfold update_b_d, update_b. ask. next. next. eapply sub_same; [apply sub_slice|]. apply sub_refl. Qed.
Lemma sub_update_mpi mpi cost row : sub (update_mpi_d mpi cost row) (update_mpi mpi cost row).
Proof using. unfold update_mpi_d. eapply sub_same; [apply sub_slice|]. apply sub_refl. Qed.
Lemma sub_basis_columns k basis : sub (basis_columns_d k basis) (basis_columns_of k basis).
Proof using. unfold basis_columns_d. apply sub_after; [apply sub_refl|]. intros cols. apply sub_mapid. intros c. apply sub_slice. Qed.
Lemma sub_carry_change c p q cc cost k : sub (carry_change_d O D c p q cc cost k) (carry_change c p q cc cost k).
Proof using S.
  unfold carry_change_d, carry_change. ask. eapply sub_same; [apply sub_slice|]. next; [apply (os_right O D S)|]. next; [apply sub_update_b|]. next. next.
  - destruct (bi_refactor O (c_bi c)); [|apply (os_change O D S)]. next; [apply sub_basis_columns|]. next; [apply (os_invert O D S)|]. apply sub_refl.
  - match goal with x : (_ * svec)%type |- _ => destruct x as [i before] end. next; [apply (os_row O D S)|]. next; [apply sub_update_mpi|]. next. apply sub_refl.
Qed.
Lemma sub_from_basis basis p : sub (from_basis_d O D basis p) (from_basis O basis p).
Proof using S.
  unfold from_basis_d, from_basis. next; [apply sub_basis_columns|]. next; [apply (os_invert O D S)|]. eapply sub_same; [apply sub_slice|]. next; [apply (os_left O D S)|]. next. eapply sub_same; [apply sub_dense|]. next.
  next; [apply sub_minus_pi|]. apply sub_refl.
Qed.
Lemma sub_carry_new mobj mpi b basis i : sub (carry_new_d O D mobj mpi b basis i) (Ok (mk_carry mobj mpi b basis i)).
Proof using. unfold carry_new_d. asks. Qed.
Lemma sub_from_artificial c p a : sub (carry_from_artificial_d O D c p a) (carry_from_artificial c p a).
Proof using S. unfold carry_from_artificial_d, carry_from_artificial. ask. next. next; [apply sub_minus_pi|]. next. apply sub_carry_new. Qed.
Lemma sub_from_artificial_remove c p rm a : sub (carry_from_artificial_remove_d O D c p rm a) (carry_from_artificial_remove c p rm a).
Proof using S.
  unfold carry_from_artificial_remove_d, carry_from_artificial_remove. ask. apply sub_drop. intros _. next. next.
  - pose proof (os_remove O D S) as R. destruct (d_remove D), (bi_remove O); try contradiction; [apply R|]. next; [apply sub_basis_columns|]. apply (os_invert O D S).
  - next; [apply sub_minus_pi|]. eapply sub_same; [apply sub_dense_remove|]. next. apply sub_carry_new.
Qed.

(** ** Tableau *)
Lemma sub_original k j : sub (original_d k j) (Ok (k_col k j)). Proof using. unfold original_d. ask. apply sub_slice. Qed.
Lemma sub_in_basis k t j : sub (in_basis_d O k t j) (Ok (in_basis t j)). Proof using. unfold in_basis_d. asks. Qed.
Lemma sub_relative k t j : sub (relative_cost_d O k t j) (Ok (relative_cost k t j)).
Proof using. unfold relative_cost_d. eapply sub_same; [apply sub_original|]. apply sub_refl. Qed.
Lemma sub_column k t j : sub (generate_column_d O D k t j) (generate_column k t j).
Proof using S. unfold generate_column_d. eapply sub_same; [apply sub_original|]. apply (os_left O D S). Qed.
Lemma sub_element k t i j : sub (generate_element_d O D k t i j) (generate_element k t i j).
Proof using S. unfold generate_element_d. ask. eapply sub_same; [apply sub_original|]. ask. apply (os_elem O D S). Qed.
Lemma sub_bring k t q p cc cost : sub (bring_into_basis_d O D k t q p cc cost) (bring_into_basis k t q p cc cost).
Proof using S.
  unfold bring_into_basis_d, bring_into_basis. ask. next; [apply sub_carry_change|]. match goal with x : (_ * change_info)%type |- _ => destruct x as [c info] end.
  apply sub_assert. intros _. apply sub_assert. intros _. cbv zeta. apply sub_assert. intros M. apply negb_true_iff in M. rewrite M. apply sub_refl.
Qed.
Lemma sub_value_of k t j : sub (variable_value_d O k t j) (variable_value k t j). Proof using. unfold variable_value_d. asks. Qed.
Lemma sub_select k t col : sub (select_row_d O D k t col) (select_row t col).
Proof using. unfold select_row_d. ask. eapply sub_same; [apply sub_slice|]. apply sub_refl. Qed.
Lemma sub_new_fully p : sub (new_fully_d O D p) (new_fully O p).
Proof using S. unfold new_fully_d, new_fully. next; [apply sub_create_fully|]. apply sub_refl. Qed.
Lemma sub_new_partially p real : sub (new_partially_d O D p real) (new_partially O p real).
Proof using S. unfold new_partially_d, new_partially. ask. destruct (Nat.ltb (p_rows p) (length real)); [apply sub_refl|]. cbv zeta. ask. next. next; [apply sub_create_partially|]. apply sub_refl. Qed.
Lemma sub_tab_from c a cols p : sub (tab_from_artificial_d O D c a cols p) (tab_from_artificial c a cols p).
Proof using S. unfold tab_from_artificial_d, tab_from_artificial. next; [apply sub_from_artificial|]. next. apply sub_refl. Qed.
Lemma sub_tab_from_remove c a cols p rm : sub (tab_from_artificial_remove_d O D c a cols p rm) (tab_from_artificial_remove c a cols p rm).
Proof using S.
  unfold tab_from_artificial_remove_d, tab_from_artificial_remove. apply sub_drop. intros gone. ask. next; [apply sub_foldM; intros cs row; next; apply sub_refl|]. next. next; [apply sub_from_artificial_remove|]. apply sub_refl.
Qed.

(** ** Pivot rules *)
Record rule_sub (R : Rule O) (RD : DRule O R) : Prop := mk_rule_sub {
  ru_new : forall k t, sub (dr_new O R RD k t) (r_new R k t);
  ru_select : forall s k t, sub (dr_select O R RD s k t) (r_select R s k t);
  ru_after : forall s i k t, sub (dr_after O R RD s i k t) (r_after R s i k t)
}.
Lemma sub_find k t : forall l, sub (find_profitable_d O k t l) (Ok (find_profitable O k t l)).
Proof using.
  induction l as [|j l IH]; [apply sub_refl|]. cbn [find_profitable_d find_profitable]. eapply sub_same; [apply sub_in_basis|]. destruct (in_basis t j); [apply IH|]. eapply sub_same; [apply sub_relative|].
  destruct (qneg _); [apply sub_refl|apply IH].
Qed.
Lemma sub_steepest k t : forall l acc, sub (foldM (steepest_variable_step_d O k t) l acc) (Ok (fold_left (steepest_variable_step O k t) l acc)).
Proof using.
  induction l as [|j l IH]; intros acc; [apply sub_refl|]. cbn [foldM fold_left]. eapply sub_same; [|apply IH]. unfold steepest_variable_step_d, steepest_variable_step. eapply sub_same; [apply sub_in_basis|]. destruct (in_basis t j); [apply sub_refl|].
  eapply sub_same; [apply sub_relative|]. destruct (qneg _); [|apply sub_refl]. destruct acc as [[x y]|]; [destruct (qltb _ _)|]; apply sub_refl.
Qed.
Lemma sub_gamma k t j : sub (initial_gamma_d O D k t j) (initial_gamma O k t j).
Proof using S. unfold initial_gamma_d, initial_gamma. next; [apply sub_column|]. apply sub_refl. Qed.
Lemma sub_sdo_new k t : sub (sdo_new_d O D k t) (sdo_new O k t).
Proof using S.
  unfold sdo_new_d, sdo_new. apply sub_mapM. intros j. destruct (Nat.leb (k_art k) j); cbn [andb]; [|apply sub_refl]. eapply sub_same; [apply sub_in_basis|]. destruct (negb _); [|apply sub_refl]. next; [apply sub_gamma|]. apply sub_refl.
Qed.
Lemma sub_sdo_select gamma k t : sub (sdo_select_d O gamma k t) (sdo_select O gamma k t).
Proof using.
  unfold sdo_select_d, sdo_select. next; [|apply sub_refl]. apply sub_foldM. intros acc j. unfold sdo_step_d, sdo_step. eapply sub_same; [apply sub_in_basis|]. destruct (in_basis t j); [apply sub_refl|].
  eapply sub_same; [apply sub_relative|]. destruct (qneg _); apply sub_refl.
Qed.
Lemma sub_sdo_update k t info gq : forall gamma j, sub (sdo_update_from_d O D k t info gq j gamma) (Ok (sdo_update_from k info gq j gamma)).
Proof using.
  induction gamma as [|og gamma IH]; intros j; [apply sub_refl|]. cbn [sdo_update_from_d sdo_update_from].
  apply (sub_same _ (match og with Some g => if Nat.ltb j (k_art k) then Some g else Some (sdo_update_gamma k info gq j g) | None => None end)).
  - destruct og as [g|]; [|apply sub_refl]. destruct (Nat.ltb j (k_art k)); [apply sub_refl|]. apply sub_drop. intros _. cbv zeta. apply sub_drop. intros fresh. asks.
  - eapply sub_same; [apply IH|]. apply sub_refl.
Qed.
Lemma sub_sdo_after gamma info k t : sub (sdo_after_d O D gamma info k t) (sdo_after O gamma info k t).
Proof using. unfold sdo_after_d, sdo_after. next. cbv zeta. eapply sub_same; [apply sub_sdo_update|]. ask. next. apply sub_refl. Qed.
Lemma sub_rule n : rule_sub (rule n O) (debug_rule n O D).
Proof using S.
  destruct n; constructor; cbn; intros; try apply sub_refl.
  all: try solve [eapply sub_same; [apply sub_find|]; apply sub_refl].
  all: try solve [eapply sub_same; [apply sub_steepest|]; apply sub_refl].
  all: try solve [apply sub_sdo_new | apply sub_sdo_after].
  - destruct s as [last|].
    + eapply sub_same; [|apply sub_refl]. eapply sub_same; [apply sub_find|]. destruct (find_profitable O k t (range (last + 1) (k_cols k))); [apply sub_refl|apply sub_find].
    + eapply sub_same; [apply sub_find|]. apply sub_refl.
  - next; [apply sub_sdo_select|]. apply sub_refl.
Qed.

(** ** The phases *)
Variable R : Rule O.
Variable RD : DRule O R.
Hypothesis SR : rule_sub R RD.
Lemma sub_step k t s : sub (simplex_step_d O D R RD k t s) (simplex_step O R k t s).
Proof using S SR.
  unfold simplex_step_d, simplex_step. apply sub_drop. intros _. next; [apply (ru_select R RD SR)|]. match goal with x : (_ * _)%type |- _ => destruct x as [[[q cost]|] s'] end; [|apply sub_refl].
  next; [apply sub_column|]. next; [apply sub_select|]. match goal with x : option nat |- _ => destruct x as [p|] end; [|apply sub_refl]. next; [apply sub_bring|].
  match goal with x : (_ * change_info)%type |- _ => destruct x as [t' info] end. next; [apply (ru_after R RD SR)|]. apply sub_refl.
Qed.
Lemma sub_loop : forall fuel k t s, sub (simplex_loop_d O D R RD fuel k t s) (simplex_loop O R fuel k t s).
Proof using S SR.
  induction fuel as [|fuel IH]; intros k t s; [apply sub_refl|]. cbn [simplex_loop_d simplex_loop]. next; [apply sub_step|]. match goal with x : step_result O R |- _ => destruct x end; [apply sub_refl|apply sub_refl|apply IH].
Qed.
Lemma sub_phase_two fuel k t : sub (phase_two_d O D R RD fuel k t) (phase_two O R fuel k t).
Proof using S SR.
  unfold phase_two_d, phase_two. next; [apply (ru_new R RD SR)|]. next; [apply sub_loop|]. match goal with x : loop_result O |- _ => destruct x end; [|apply sub_refl]. unfold current_bfs_d. eapply sub_same; [apply sub_sparse|]. apply sub_refl.
Qed.
Lemma sub_removal_ok k t row v j : sub (removal_ok_d O D k t row v j) (removal_ok O k t row v j).
Proof using S.
  unfold removal_ok_d, removal_ok. eapply sub_same; [apply sub_in_basis|]. destruct (in_basis t j); [apply sub_refl|]. eapply sub_same; [apply sub_relative|].
  destruct (qzero v); [next; [apply sub_element|apply sub_refl]|]. destruct (qzero (relative_cost k t j)); [next; [apply sub_element|apply sub_refl]|apply sub_refl].
Qed.
Lemma sub_removal_step k st e : sub (removal_step_d O D k st e) (removal_step O k st e).
Proof using S.
  unfold removal_step_d, removal_step. destruct st as [t rows], e as [row art]. eapply sub_same; [apply sub_in_basis|]. ask. next; [apply sub_value_of|]. next; [apply sub_findM; intros j; apply sub_removal_ok|].
  apply sub_after; [|intros st'; apply sub_drop; intros _; apply sub_refl]. match goal with x : option nat |- _ => destruct x as [q|] end; [|apply sub_refl]. cbv zeta. eapply sub_same; [apply sub_relative|]. next; [apply sub_column|]. next; [apply sub_bring|].
  apply sub_drop. intros b. asks.
Qed.
Lemma sub_remove k t : sub (remove_artificials_d O D k t) (remove_artificials O k t).
Proof using S. unfold remove_artificials_d, remove_artificials. next. apply sub_after; [apply sub_foldM; intros st e; apply sub_removal_step|]. intros r. asks. Qed.
Lemma sub_phase_one fuel k t : sub (phase_one_d O D R RD fuel k t) (phase_one O R fuel k t).
Proof using S SR.
  unfold phase_one_d, phase_one. next; [apply (ru_new R RD SR)|]. next; [apply sub_loop|]. match goal with x : loop_result O |- _ => destruct x as [t'|t'] end; [|apply sub_refl]. destruct (qzero (objective_value t')); [|apply sub_refl].
  destruct (has_artificial k t'); [|apply sub_refl]. next; [apply sub_remove|]. apply sub_refl.
Qed.
Lemma sub_compute fuel p : sub (compute_bfs_d O D R RD fuel p) (compute_bfs O R fuel p).
Proof using S SR.
  unfold compute_bfs_d, compute_bfs. destruct (p_init p).
  - next; [apply sub_new_fully|]. next; [apply sub_phase_one|]. apply sub_refl.
  - next; [apply sub_new_partially|]. match goal with x : (_ * list nat)%type |- _ => destruct x as [t arts] end. next; [apply sub_phase_one|]. apply sub_refl.
  - next; [apply sub_new_partially|]. match goal with x : (_ * list nat)%type |- _ => destruct x as [t arts] end. next; [apply sub_phase_one|]. apply sub_refl.
Qed.
Lemma sub_solve fuel p : sub (solve_d O D R RD fuel p) (solve O R fuel p).
Proof using S SR.
  assert (T : sub (solve_two_phase_d O D R RD fuel p) (solve_two_phase O R fuel p)).
  { unfold solve_two_phase_d, solve_two_phase. next; [apply sub_compute|]. match goal with x : (_ * nat)%type |- _ => destruct x as [f a] end. destruct f as [[|rows] t|]; [| |apply sub_refl].
    - next; [apply sub_tab_from|]. apply sub_phase_two.
    - destruct rows as [|row rows]; [next; [apply sub_tab_from|]; apply sub_phase_two|]. unfold to_filtered_d. cbv zeta. eapply sub_same; [asks|]. next; [apply sub_tab_from_remove|]. apply sub_phase_two. }
  unfold solve_d, solve. destruct (p_init p); [exact T|exact T|]. unfold solve_full_basis_d, solve_full_basis. next; [apply sub_from_basis|]. apply sub_phase_two.
Qed.
End Solver.
(** whatever the provider is, a debug build that gives an answer gives that of the release build *)
Theorem run_sub r n fuel p a : run_debug r n fuel p = Ok a -> run r n fuel p = Ok a.
Proof. unfold run_debug, run. apply (sub_solve _ _ (debug_ops_sub r) _ _ (sub_rule _ _ (debug_ops_sub r) n)). Qed.
