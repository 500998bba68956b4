(** * A debug build that gives an answer gives the answer of a release build: general forms and texts *)
From Verif Require Import TextPipeline PresolveD PipelineD TextD PresolveDP TextPresolve TextDP TextDQ TextDR.
From Verif Require Export DebugSubS.
Local Open Scope Qc_scope.

Lemma sub_split g : sub (split_free_d g) (split_free g).
Proof. unfold split_free_d, split_free. next. next. apply sub_refl. Qed.
Lemma sub_transform g : sub (transform_variables_d g) (transform_variables g).
Proof. unfold transform_variables_d, transform_variables. next; [apply sub_split|]. apply sub_after; [apply sub_refl|]. intros g'. asks. Qed.
Lemma sub_non_negative g : sub (make_b_non_negative_d g) (make_b_non_negative g).
Proof. unfold make_b_non_negative_d. apply sub_after; [apply sub_refl|]. intros g'. asks. Qed.
Lemma sub_reorder g : sub (reorder_d g) (reorder g).
Proof. unfold reorder_d. apply sub_after; [apply sub_refl|]. intros gc. asks. Qed.
Lemma sub_standardize g : sub (standardize_d g) (standardize g).
Proof. unfold standardize_d, standardize. next; [apply sub_transform|]. next; [apply sub_non_negative|]. apply sub_reorder. Qed.
Lemma sub_derive g c : sub (derive_matrix_data_d g c) (derive_matrix_data g c).
Proof. unfold derive_matrix_data_d, derive_matrix_data. ask. next. next. unfold new_md_d. ask. cbv zeta. asks. Qed.
Lemma sub_reconstruct d len z : sub (reconstruct_d d len z) (Ok (reconstruct d z)).
Proof. unfold reconstruct_d, remove_d. asks. Qed.
Lemma sub_get z len i : sub (get_d z len i) (Ok (sget z i)). Proof. unfold get_d. asks. Qed.
Lemma sub_reshift_one len z jv : sub (reshift_one_d len z jv) (Ok (reshift_one z jv)).
Proof.
  unfold reshift_one_d, reshift_one. destruct jv as [j v]. eapply sub_same; [unfold shift_value_d; asks|]. destruct (v_flipped v); [|apply sub_refl]. eapply sub_same; [apply sub_get|].
  destruct (sget _ j); [|apply sub_refl]. unfold sset_d. asks.
Qed.
Lemma sub_reshift vars len z : sub (reshift_d vars len z) (Ok (reshift vars z)).
Proof.
  unfold reshift_d, reshift. ask. revert z. generalize (number_from 0 vars). induction l as [|jv l IH]; intros z; [apply sub_refl|]. cbn [foldM fold_left]. eapply sub_same; [apply sub_reshift_one|]. apply IH.
Qed.
Lemma sub_value_with n len orig z : forall fuel o, sub (value_with_bfs_d n len fuel orig z o) (value_with_bfs fuel orig z o).
Proof.
  induction fuel as [|fuel IH]; intros o; [apply sub_refl|]. cbn [value_with_bfs_d value_with_bfs]. ask. next. destruct (snd _) as [j|jp jn|[v|constant coefficients]].
  - eapply sub_same; [apply sub_get|]. apply sub_refl.
  - eapply sub_same; [apply sub_get|]. eapply sub_same; [apply sub_get|]. apply sub_refl.
  - apply sub_refl.
  - next; [apply sub_mapM; intros [j c]; next; [apply IH|apply sub_refl]|]. apply sub_refl.
Qed.
Lemma sub_full fuel g len z : sub (full_solution_d fuel g len z) (full_solution fuel g z).
Proof.
  unfold full_solution_d, full_solution. ask. next. cbv zeta. eapply sub_same; [apply sub_reshift|]. next; [apply sub_mapM; intros o; apply sub_value_with|]. apply sub_refl.
Qed.
(** whatever the general form is *)
Theorem general_sub r n fuel g a : solve_general_debug r n fuel g = Ok a -> solve_general r n fuel g = Ok a.
Proof.
  revert a. change (sub (solve_general_debug r n fuel g) (solve_general r n fuel g)). unfold solve_general_debug, solve_general. next; [apply sub_standardize|]. next; [apply sub_derive|]. next; [intros x; apply run_sub|].
  match goal with x : opt_result |- _ => destruct x end; try apply sub_refl. eapply sub_same; [apply sub_reconstruct|]. next; [apply sub_full|]. apply sub_refl.
Qed.
Theorem presolved_sub on r n fuel g a : presolve_and_solve_debug on r n fuel g = Ok a -> presolve_and_solve r n fuel g = Ok a.
Proof.
  unfold presolve_and_solve_debug, presolve_and_solve. destruct (presolve_debug_or fuel g on) as [E|E]; rewrite E; [discriminate|]. destruct (presolve fuel g) as [g'|[| |s]| |]; try exact (fun H => H). apply general_sub.
Qed.
Theorem text_sub (parse parse_d : string -> out mps) r n fuel text a : or_crash (parse_d text) (parse text) ->
  solve_with_d parse_d r n fuel text = Got (Ok a) -> solve_with parse r n fuel text = Got (Ok a).
Proof.
  intros C. unfold solve_with_d, solve_with. destruct C as [->| ->]; [discriminate|]. destruct (parse text) as [m| |]; cbn [obind]; try discriminate. destruct (convert_or_crash m) as [->| ->]; [discriminate|].
  destruct (to_general m) as [g| |]; cbn [obind]; try discriminate. intros H. injection H as H. now rewrite (general_sub r n fuel g a H).
Qed.
Theorem text_presolved_sub on (parse parse_d : string -> out mps) r n fuel text a : or_crash (parse_d text) (parse text) ->
  presolve_with_d on parse_d r n fuel text = Got (Ok a) -> presolve_with parse r n fuel text = Got (Ok a).
Proof.
  intros C. unfold presolve_with_d, presolve_with. destruct C as [->| ->]; [discriminate|]. destruct (parse text) as [m| |]; cbn [obind]; try discriminate. destruct (convert_or_crash m) as [->| ->]; [discriminate|].
  destruct (to_general m) as [g| |]; cbn [obind]; try discriminate. intros H. injection H as H. now rewrite (presolved_sub on r n fuel g a H).
Qed.
