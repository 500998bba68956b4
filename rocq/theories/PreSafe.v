(** * Presolving, and presolving before solving, on safe runs *)
From Verif Require Import SpecGeneral SparseP LinAlg KindP InitP PermP KeptP CarryP SearchP StandardP StandardQ StandardR RangesP PipelineP PreTerm SpecSizes SizesP.
From Verif Require Export PreFinal.
Local Open Scope Qc_scope.

Lemma all_solved_spec l vs : all_solved l = Some vs -> map fst vs = map fst l /\
  forall o name e, nth_error l o = Some (name, e) -> e = Removed (Solved (nth o (map snd vs) 0)).
Proof.
  revert vs. induction l as [|[name e] l IH]; intros vs E; cbn in E.
  - injection E as <-. split; [reflexivity|]. intros [|o]; discriminate.
  - destruct e as [| |[v|]]; try discriminate. destruct (all_solved l) as [t|]; [|discriminate]. cbn in E. injection E as <-. destruct (IH t eq_refl) as [H1 H2]. split; [cbn; now rewrite H1|].
    intros [|o] nm e' N; cbn in N; [injection N as <- <-; reflexivity|]. exact (H2 o nm e' N).
Qed.

Definition right_answer (g : general) (s : solution) : Prop :=
  map fst (s_values s) = map fst (g_orig g) /\ goptimal g (solution_point s) /\ s_objective s = gcost g (solution_point s).
Lemma all_gone fuel g rows s g2 g3 sol : general_ok g -> fresh g -> changed g rows s -> reduces g (i_u s) g2 -> resolves fuel g2 g3 -> get_solution g3 = Some sol -> right_answer g sol.
Proof.
  intros G F C RD RS E. pose proof (presolve_faithful fuel g rows s g2 g3 G F C RD RS) as FA. unfold get_solution in E. destruct (all_solved (g_orig g3)) as [vs|] eqn:A; [|discriminate]. cbn in E. injection E as <-.
  apply all_solved_spec in A. destruct A as [A1 A2]. set (sol := mk_solution (g_fixed g3) vs).
  destruct C as [M RV T I D S O].
  assert (K0 : forall j, on_var (view_of s) j = false).
  { intros j. destruct (on_var (view_of s) j) eqn:Oj; [|reflexivity]. exfalso. apply (K_active g rows s T) in Oj. apply (In_nth _ _ 0%nat) in Oj. destruct Oj as (k & L & E).
    assert (Lj : (j < nr_vars g)%nat) by (rewrite <- E; now apply (nth_K g rows s T)). destruct (rd_orig _ _ _ RD j Lj) as (name & _ & _ & H). specialize (H k L E).
    destruct (rs_orig _ _ _ RS j name _ H) as (e' & N & R). cbn in R. subst e'. discriminate (A2 j name _ N). }
  assert (R0 : forall i, on_row (view_of s) i = false).
  { intros i. destruct (on_row (view_of s) i) eqn:Oi; [|reflexivity]. exfalso. apply on_row_cc in Oi. pose proof (td_row g rows _ s i T Oi) as X.
    destruct (active_row rows (i_c s) i) as [|[j c] t] eqn:AR; [cbn in X; congruence|]. assert (Ij : In (j, c) (active_row rows (i_c s) i)) by (rewrite AR; now left).
    apply active_row_In in Ij. destruct Ij as [_ Ij]. apply on_var_cv in Ij. rewrite K0 in Ij. discriminate. }
  set (x := solution_point sol).
  assert (FX : forall x, gfeasible g3 x).
  { intros x'. apply (resolved_same fuel g2 g3 RS). apply (left_feasible g rows s g2 M RV T I RD x' (extend s x')); [intros j L; now apply (extend_K g rows s T)|].
    split; [intros j Oj; rewrite K0 in Oj; discriminate|intros i Oi; rewrite R0 in Oi; discriminate]. }
  assert (CX : forall x, gcost g3 x = g_fixed g3).
  { intros x'. destruct (resolved_same fuel g2 g3 RS) as [_ HC]. rewrite HC, (left_cost g rows s g2 T RD x' (extend s x')) by (intros j L; now apply (extend_K g rows s T)).
    unfold vcost. rewrite (sum_zero (nr_vars g)) by (intros j _; now rewrite K0). rewrite (rs_fixed _ _ _ RS), (rd_fixed _ _ _ RD). cbn. ring. }
  assert (OX : goptimal g3 x) by (split; [apply FX|]; intros y _; rewrite !CX; apply better_refl).
  assert (CP : completed g3 x x).
  { intros o name e N. rewrite (A2 o name e N). reflexivity. }
  destruct (fa_optimal _ _ FA x x OX CP) as [H1 H2]. split; [|split].
  - cbn [s_values sol]. rewrite A1. apply (fa_names _ _ FA).
  - exact H1.
  - fold x. now rewrite H2, CX.
Qed.

Definition safe_outcome (g : general) (r : pr general) : Prop :=
  match r with
  | Go g' => faithful g g'
  | Stop (VOptimum s) => right_answer g s
  | Stop v => right_verdict g v
  | PPanic => False
  | PFuel => True
  end.
Lemma presolve_spec fuel g : general_ok g -> fresh g -> safe_run fuel g = true -> safe_outcome g (presolve fuel g).
Proof.
  intros G F SR. unfold presolve. pose proof (changes_spec fuel g G F SR) as P. destruct (presolve_changes fuel g) as [u|v| |]; cbn [pbind].
  - destruct P as (rows & s & -> & C).
    destruct (reduced_spec g (i_u s) G F (td_rem_nd _ _ _ _ (ch_tidy _ _ _ C)) (fun j H => proj1 (proj1 (td_rem _ _ _ _ (ch_tidy _ _ _ C) j) H))
       (td_gone_nd _ _ _ _ (ch_tidy _ _ _ C)) (fun i H => proj1 (proj1 (td_gone _ _ _ _ (ch_tidy _ _ _ C) i) H))) as (g1 & g2 & E1 & E2 & RD).
    rewrite E1. cbn [lift pbind]. rewrite E2. cbn [lift pbind].
    pose proof (resolve_no_panic g (i_u s) g2 RD (ch_ordered _ _ _ C) fuel) as NP.
    destruct (solution_where_possible fuel g2) as [g3| |] eqn:E3; cbn [lift pbind]; [|congruence|exact Logic.I].
    apply resolve_spec in E3. destruct (get_solution g3) as [sol|] eqn:GS.
    + exact (all_gone fuel g rows s g2 g3 sol G F C RD E3 GS).
    + exact (presolve_faithful fuel g rows s g2 g3 G F C RD E3).
  - destruct v; [exact P|exact P|contradiction].
  - exact P.
  - exact Logic.I.
Qed.
Lemma presolve_enough fuel g : general_ok g -> fresh g -> safe_run fuel g = true -> presolve_changes fuel g <> PFuel -> (nr_vars g < fuel)%nat -> presolve fuel g <> PFuel.
Proof.
  intros G F SR NF L. unfold presolve. pose proof (changes_spec fuel g G F SR) as P. destruct (presolve_changes fuel g) as [u|v| |]; cbn [pbind]; try congruence.
  destruct P as (rows & s & -> & C).
  destruct (reduced_spec g (i_u s) G F (td_rem_nd _ _ _ _ (ch_tidy _ _ _ C)) (fun j H => proj1 (proj1 (td_rem _ _ _ _ (ch_tidy _ _ _ C) j) H))
     (td_gone_nd _ _ _ _ (ch_tidy _ _ _ C)) (fun i H => proj1 (proj1 (td_gone _ _ _ _ (ch_tidy _ _ _ C) i) H))) as (g1 & g2 & E1 & E2 & RD).
  rewrite E1. cbn [lift pbind]. rewrite E2. cbn [lift pbind].
  destruct (resolve_total g (i_u s) g2 RD (ch_ordered _ _ _ C) fuel (td_rem_nd _ _ _ _ (ch_tidy _ _ _ C))) as [g3 E3].
  { apply Nat.le_lt_trans with (nr_vars g); [|assumption]. rewrite <- (map_length fst), <- (seq_length (nr_vars g) 0). apply NoDup_incl_length; [apply (td_rem_nd _ _ _ _ (ch_tidy _ _ _ C))|].
    intros j Hj. apply (td_rem _ _ _ _ (ch_tidy _ _ _ C)) in Hj. apply in_seq. lia. }
  rewrite E3. cbn [lift pbind]. now destruct (get_solution g3).
Qed.

(** ** More steps change nothing *)
Lemma safe_loop_end g rows : forall fuel fuel' stale sup s, safe_loop g rows fuel stale sup s = true -> presolve_loop g rows fuel stale s <> PFuel -> safe_loop g rows fuel' stale sup s = true.
Proof.
  induction fuel as [|fuel IH]; intros fuel' stale sup s H N; destruct fuel' as [|fuel'].
  - assumption.
  - cbn [safe_loop presolve_loop] in *. apply andb_true_iff in H. destruct H as [H1 H2]. rewrite H1. cbn [andb]. destruct (queues_empty (i_q s)); [reflexivity|].
    destruct (nr_remaining g (i_u s)) as [r|v| |]; cbn [pbind] in *; try reflexivity. destruct (Nat.leb r stale); [reflexivity|congruence].
  - cbn [safe_loop presolve_loop] in *. apply andb_true_iff in H. destruct H as [H1 H2]. rewrite H1. cbn [andb]. destruct (queues_empty (i_q s)); [reflexivity|].
    destruct (nr_remaining g (i_u s)) as [r|v| |]; cbn [pbind] in *; try reflexivity. destruct (Nat.leb r stale); reflexivity.
  - cbn [safe_loop presolve_loop] in *. apply andb_true_iff in H. destruct H as [H1 H2]. rewrite H1. cbn [andb]. destruct (queues_empty (i_q s)); [reflexivity|].
    destruct (nr_remaining g (i_u s)) as [r|v| |]; cbn [pbind] in *; try reflexivity. destruct (Nat.leb r stale); [reflexivity|].
    apply andb_true_iff in H2. destruct H2 as [H2 H3]. rewrite H2. cbn [andb]. destruct (presolve_step g rows s) as [[s' c]|v| |]; cbn [pbind fst snd] in *; try reflexivity.
    destruct c; now apply IH.
Qed.
Lemma safe_check fuel g : presolve_changes fuel g <> PFuel -> safe_run fuel g = true -> safe g.
Proof.
  unfold presolve_changes, safe_run. intros N H fuel'. unfold safe_run. destruct (transpose_from 0 (g_cols g) (repeat [] (g_rows g))) as [rows| |]; cbn [lift pbind] in *; try reflexivity.
  destruct (index_new g rows) as [s|v| |]; cbn [pbind] in *; try reflexivity. apply (safe_loop_end g rows fuel); [assumption|]. intros E. rewrite E in N. now apply N.
Qed.
Lemma resolve_more fuel fuel' g2 g3 : (fuel <= fuel')%nat -> solution_where_possible fuel g2 = Ok g3 -> solution_where_possible fuel' g2 = Ok g3.
Proof.
  unfold solution_where_possible. intros L E. match type of E with bind ?m _ = _ => destruct m as [orig| |] eqn:X end; cbn [bind] in E; try discriminate.
  erewrite StandardR.mapM_mono; [| |exact X]; [exact E|]. intros [o [name e]] y _ Y. cbn in *. destruct e as [| |[w|c cs]]; try assumption.
  destruct (value_if_known fuel (g_orig g2) o) as [k| |] eqn:V; cbn [bind] in Y; try discriminate. rewrite (known_more fuel fuel' _ _ _ L V). exact Y.
Qed.
Lemma presolve_settles g : general_ok g -> fresh g -> safe g -> exists result fuel0, result <> PFuel /\ forall fuel, (fuel0 <= fuel)%nat -> presolve fuel g = result.
Proof.
  intros G F SF. destruct (changes_end g) as (r & f0 & NR & H). set (f1 := (f0 + S (nr_vars g))%nat). exists (presolve f1 g), f1.
  assert (N : presolve f1 g <> PFuel) by (apply presolve_enough; try assumption; [apply SF|rewrite H by lia; assumption|lia]).
  split; [assumption|]. intros fuel L. unfold presolve in *. pose proof (changes_spec f1 g G F (SF f1)) as P. rewrite (H f1) in * by lia. rewrite (H fuel) by lia. destruct r as [u|v| |]; cbn [pbind] in *; try reflexivity.
  destruct P as (rows & s & -> & C).
  destruct (reduced_spec g (i_u s) G F (td_rem_nd _ _ _ _ (ch_tidy _ _ _ C)) (fun j H => proj1 (proj1 (td_rem _ _ _ _ (ch_tidy _ _ _ C) j) H))
     (td_gone_nd _ _ _ _ (ch_tidy _ _ _ C)) (fun i H => proj1 (proj1 (td_gone _ _ _ _ (ch_tidy _ _ _ C) i) H))) as (g1 & g2 & E1 & E2 & RD).
  rewrite E1 in *. cbn [lift pbind] in *. rewrite E2 in *. cbn [lift pbind] in *. pose proof (resolve_no_panic g (i_u s) g2 RD (ch_ordered _ _ _ C) f1) as NP.
  destruct (solution_where_possible f1 g2) as [g3| |] eqn:E; cbn [lift pbind] in *; try congruence. now rewrite (resolve_more _ fuel g2 g3 L E).
Qed.

(** ** Presolving and solving *)
Lemma safe_solve r n fuel g a : general_ok g -> fresh g -> safe_run fuel g = true -> presolve_and_solve r n fuel g = Ok a ->
  match a with
  | Solved_to s => map fst (s_values s) = map fst (g_orig g) /\ goptimal g (solution_point s) /\ (g_objective g = Minimize -> s_objective s = gcost g (solution_point s))
  | NoSolution => forall x, ~ gfeasible g x
  | NoBound => forall x, gfeasible g x -> gunbounded g
  end.
Proof.
  intros G F SR E. unfold presolve_and_solve in E. pose proof (presolve_spec fuel g G F SR) as P. destruct (presolve fuel g) as [g'|v| |]; cbn [safe_outcome] in P; try discriminate.
  - destruct a as [s| |].
    + destruct (solve_general_optimum r n fuel g' s (fa_ok _ _ P) E) as (x & val & OX & CX & V & SO). destruct (fa_optimal _ _ P x val OX CX) as [OV CV].
      assert (LL : length (map fst (g_orig g')) = length (map val (range 0 (length (g_orig g'))))) by (unfold range; rewrite !map_length, seq_length; lia).
      assert (LG : length (g_orig g') = nr_vars g) by (destruct F as [F1 _]; rewrite <- F1, <- (map_length fst), (fa_names _ _ P), map_length; reflexivity).
      assert (EX : forall j, (j < nr_vars g)%nat -> val j = solution_point s j).
      { intros j Lj. unfold solution_point. rewrite V, combine_snd by assumption. unfold range. rewrite Nat.sub_0_r. rewrite (PreKept.nth_map_lt val (seq 0 (length (g_orig g'))) j 0%nat) by (rewrite seq_length; lia). rewrite seq_nth by lia. reflexivity. }
      split; [rewrite V, combine_fst by assumption; apply (fa_names _ _ P)|]. split; [apply (goptimal_ext g val); [assumption|exact OV]|].
      intros MN. rewrite (fa_objective _ _ P), MN in SO. rewrite SO, <- CV. now apply gcost_ext.
    + intros y FY. destruct (fa_better _ _ P y FY) as (x & FX & _). exact (solve_general_infeasible r n fuel g' (fa_ok _ _ P) E x FX).
    + intros y FY. destruct (solve_general_unbounded r n fuel g' (fa_ok _ _ P) E) as [_ U]. split; [now exists y|]. intros bound. destruct (U bound) as (z & FZ & B). destruct (fa_some _ _ P z FZ) as (y' & FY' & EY).
      exists y'. split; [assumption|]. rewrite EY. now rewrite (fa_objective _ _ P) in B.
  - destruct v as [| |s]; cbn in E; injection E as <-; cbn [right_verdict] in P; [exact P|exact P|]. destruct P as (P1 & P2 & P3). auto.
Qed.
Lemma safe_solve_rows n fuel g : general_ok g -> fresh g -> safe_run fuel g = true -> presolve_and_solve UseRows n fuel g <> Panic.
Proof.
  intros G F SR. unfold presolve_and_solve. pose proof (presolve_spec fuel g G F SR) as P. destruct (presolve fuel g) as [g'|v| |]; cbn [safe_outcome] in P; try discriminate; try contradiction.
  - apply rows_no_panic; [apply (fa_ok _ _ P)|apply (fa_acyclic _ _ P)].
  - now destruct v.
Qed.
Lemma safe_solve_ends g : general_ok g -> fresh g -> safe g -> exists fuel0 a, forall fuel, (fuel0 <= fuel)%nat -> presolve_and_solve UseRows FirstProfitable fuel g = Ok a.
Proof.
  intros G F SF. destruct (presolve_settles g G F SF) as (r & f0 & N & H). pose proof (presolve_spec f0 g G F (SF f0)) as P. rewrite (H f0) in P by lia. unfold presolve_and_solve.
  destruct r as [g'|v| |]; cbn [safe_outcome] in P; try contradiction; try congruence.
  - destruct (rows_terminates g' (fa_ok _ _ P) (fa_acyclic _ _ P)) as (f1 & a & E). exists (f0 + f1)%nat, a. intros fuel L. rewrite H by lia. apply E. lia.
  - exists f0. destruct v as [| |s]; eexists; intros fuel L; rewrite H by lia; reflexivity.
Qed.

Lemma presolve_more fuel fuel' g g' : (fuel <= fuel')%nat -> presolve fuel g = Go g' -> presolve fuel' g = Go g'.
Proof.
  intros L E. unfold presolve in *. assert (C : presolve_changes fuel' g = presolve_changes fuel g).
  { assert (N : presolve_changes fuel g <> PFuel) by (intros X; rewrite X in E; discriminate). unfold presolve_changes in *.
    destruct (lift (transpose_from 0 (g_cols g) (repeat [] (g_rows g)))) as [rows|v| |]; cbn [pbind] in *; try reflexivity. destruct (index_new g rows) as [s|v| |]; cbn [pbind] in *; try reflexivity.
    replace fuel' with ((fuel' - fuel) + fuel)%nat by lia. rewrite loop_more; [reflexivity|]. intros X. rewrite X in N. now apply N. }
  rewrite C. destruct (presolve_changes fuel g) as [u|v| |]; cbn [pbind] in *; try assumption. destruct (lift (values_that_remain g u)) as [g1|v| |]; cbn [pbind] in *; try assumption.
  destruct (lift (remove_rows_and_columns g1 (u_gone u) (map fst (u_removed u)))) as [g2|v| |]; cbn [pbind] in *; try assumption.
  destruct (solution_where_possible fuel g2) as [g3| |] eqn:X; cbn [lift pbind] in *; try discriminate. now rewrite (resolve_more fuel fuel' g2 g3 L X).
Qed.
Lemma safe_solve_lu n fuel g g' : general_ok g -> fresh g -> safe_run fuel g = true -> presolve fuel g = Go g' -> (2 <= inequality_rows g')%nat -> presolve_and_solve UseLU n fuel g <> Panic.
Proof.
  intros G F SR E H. unfold presolve_and_solve. pose proof (presolve_spec fuel g G F SR) as P. rewrite E in *. cbn [safe_outcome] in P. exact (lu_two_no_panic n fuel g' (fa_ok _ _ P) (fa_acyclic _ _ P) H).
Qed.
Lemma safe_solve_lu_ends fuel0 g g' : general_ok g -> fresh g -> safe_run fuel0 g = true -> presolve fuel0 g = Go g' -> (2 <= inequality_rows g')%nat -> exists fuel1 a, forall fuel, (fuel1 <= fuel)%nat -> presolve_and_solve UseLU FirstProfitable fuel g = Ok a.
Proof.
  intros G F SR E H. pose proof (presolve_spec fuel0 g G F SR) as P. rewrite E in P. cbn [safe_outcome] in P. destruct (lu_two_terminates g' (fa_ok _ _ P) (fa_acyclic _ _ P) H) as (f1 & a & K).
  exists (fuel0 + f1)%nat, a. intros fuel L. unfold presolve_and_solve. rewrite (presolve_more fuel0 fuel g g') by (assumption || lia). apply K. lia.
Qed.

(** ** As stated in PropSafe.v *)
Lemma presolve_points fuel g g' : general_ok g -> fresh g -> safe_run fuel g = true -> presolve fuel g = Go g' ->
  (forall x val, gfeasible g' x -> completed g' x val -> gfeasible g val /\ gcost g val = gcost g' x) /\
  (forall x val, goptimal g' x -> completed g' x val -> goptimal g val /\ gcost g val = gcost g' x).
Proof. intros G F SR E. pose proof (presolve_spec fuel g G F SR) as P. rewrite E in P. split; [apply (fa_feasible _ _ P)|apply (fa_optimal _ _ P)]. Qed.
Lemma presolve_lossless fuel g g' : general_ok g -> fresh g -> safe_run fuel g = true -> presolve fuel g = Go g' ->
  general_ok g' /\ g_objective g' = g_objective g /\ map fst (g_orig g') = map fst (g_orig g) /\
  (forall y, gfeasible g y -> exists x, gfeasible g' x /\ better (g_objective g) (gcost g' x) (gcost g y)).
Proof.
  intros G F SR E. pose proof (presolve_spec fuel g G F SR) as P. rewrite E in P.
  split; [apply (fa_ok _ _ P)|split; [apply (fa_objective _ _ P)|split; [apply (fa_names _ _ P)|apply (fa_better _ _ P)]]].
Qed.
Lemma presolve_solution fuel g s : general_ok g -> fresh g -> safe_run fuel g = true -> presolve fuel g = Stop (VOptimum s) ->
  map fst (s_values s) = map fst (g_orig g) /\ goptimal g (solution_point s) /\ s_objective s = gcost g (solution_point s).
Proof. intros G F SR E. pose proof (presolve_spec fuel g G F SR) as P. rewrite E in P. exact P. Qed.
Lemma presolve_infeasible fuel g : general_ok g -> fresh g -> safe_run fuel g = true -> presolve fuel g = Stop VInfeasible -> forall x, ~ gfeasible g x.
Proof. intros G F SR E. pose proof (presolve_spec fuel g G F SR) as P. rewrite E in P. exact P. Qed.
Lemma presolve_unbounded fuel g x : general_ok g -> fresh g -> safe_run fuel g = true -> presolve fuel g = Stop VUnbounded -> gfeasible g x -> gunbounded g.
Proof. intros G F SR E. pose proof (presolve_spec fuel g G F SR) as P. rewrite E in P. exact (P x). Qed.
Lemma presolve_calm fuel g : general_ok g -> fresh g -> safe_run fuel g = true -> presolve fuel g <> PPanic.
Proof. intros G F SR E. pose proof (presolve_spec fuel g G F SR) as P. rewrite E in P. exact P. Qed.
Lemma presolve_result g : general_ok g -> fresh g -> safe g ->
  exists result fuel0, result <> PFuel /\ result <> PPanic /\ forall fuel, (fuel0 <= fuel)%nat -> presolve fuel g = result.
Proof.
  intros G F SF. destruct (presolve_settles g G F SF) as (r & f0 & N & H). exists r, f0. split; [assumption|]. split; [|assumption].
  rewrite <- (H f0) by lia. apply presolve_calm; auto.
Qed.
Lemma presolve_pipeline g : general_ok g -> fresh g -> safe g ->
  (forall n fuel, presolve_and_solve UseRows n fuel g <> Panic) /\
  exists fuel0 a, forall fuel, (fuel0 <= fuel)%nat -> presolve_and_solve UseRows FirstProfitable fuel g = Ok a.
Proof. intros G F SF. split; [intros n fuel; apply safe_solve_rows; auto|now apply safe_solve_ends]. Qed.

(** ** Several calls *)
Lemma kept_fresh fuel g g' : general_ok g -> fresh g -> safe_run fuel g = true -> presolve fuel g = Go g' -> length (g_vars g') = length (g_vars g) -> fresh g'.
Proof.
  intros G F SR E LN. unfold presolve in E. pose proof (changes_spec fuel g G F SR) as P. destruct (presolve_changes fuel g) as [u|v| |]; cbn [pbind] in E; try discriminate.
  destruct P as (rows & s & -> & C).
  destruct (reduced_spec g (i_u s) G F (td_rem_nd _ _ _ _ (ch_tidy _ _ _ C)) (fun j H => proj1 (proj1 (td_rem _ _ _ _ (ch_tidy _ _ _ C) j) H))
     (td_gone_nd _ _ _ _ (ch_tidy _ _ _ C)) (fun i H => proj1 (proj1 (td_gone _ _ _ _ (ch_tidy _ _ _ C) i) H))) as (g1 & g2 & E1 & E2 & RD).
  rewrite E1 in E. cbn [lift pbind] in E. rewrite E2 in E. cbn [lift pbind] in E.
  destruct (solution_where_possible fuel g2) as [g3| |] eqn:E3; cbn [lift pbind] in E; try discriminate. destruct (get_solution g3); [discriminate|]. injection E as E. subst g'.
  apply resolve_spec in E3. rename E3 into RS.
  assert (LV : length (vars_in g (i_u s)) = nr_vars g) by (unfold nr_vars; rewrite <- LN, (rs_vars _ _ _ RS); symmetry; apply (rd_vars _ _ _ RD)).
  assert (VI : vars_in g (i_u s) = seq 0 (nr_vars g)).
  { assert (X : u_removed (i_u s) = []).
    { destruct (u_removed (i_u s)) as [|[j r] t] eqn:U; [reflexivity|]. exfalso. assert (Ij : ~ In j (vars_in g (i_u s))) by (rewrite vars_in_In, U; cbn; tauto).
      assert (Lj : (j < nr_vars g)%nat) by (apply (td_rem _ _ _ _ (ch_tidy _ _ _ C)); rewrite U; now left).
      assert (ND : NoDup (vars_in g (i_u s))) by (unfold vars_in; apply NoDup_filter, seq_NoDup).
      assert (ND2 : NoDup (j :: vars_in g (i_u s))) by now constructor.
      pose proof (NoDup_incl_length ND2 (l' := seq 0 (nr_vars g))) as Q. rewrite seq_length in Q. cbn [length] in Q. rewrite LV in Q.
      assert (nr_vars g >= S (nr_vars g))%nat; [|lia]. apply Q. intros k [<-|Ik]; [apply in_seq; lia|]. apply vars_in_In in Ik. apply in_seq. lia. }
    unfold vars_in, vars_out. rewrite X. cbn. unfold CarryP.kept, range. cbn. rewrite ?Nat.sub_0_r. clear. induction (seq 0 (nr_vars g)) as [|a l IH]; [reflexivity|]. cbn. now rewrite IH. }
  assert (NV : nr_vars g3 = nr_vars g) by exact LN.
  split; [rewrite (rs_no _ _ _ RS), (rd_no _ _ _ RD); now symmetry|]. rewrite NV. split; [|split].
  - intros j Lj. destruct (rd_orig _ _ _ RD j Lj) as (name & _ & _ & H). exists name.
    assert (N : nth_error (g_orig g2) j = Some (name, Active j)) by (apply H; [now rewrite LV|rewrite VI; now apply seq_nth]).
    destruct (rs_orig _ _ _ RS j name _ N) as (e' & N3 & R). cbn in R. now subst e'.
  - intros j Lj. unfold var. rewrite (rs_vars _ _ _ RS). destruct (rd_var _ _ _ RD j) as (_ & _ & _ & H4 & H5); [now rewrite LV|]. now split.
  - intros j Lj. rewrite (rs_from _ _ _ RS), (rd_from _ _ _ RD), VI. now apply seq_nth.
Qed.
Lemma fresh_complete g x : fresh g -> completed g x x.
Proof.
  intros F o name e N. assert (Lo : (o < nr_vars g)%nat) by (destruct F as [F1 _]; rewrite <- F1; apply nth_error_Some; congruence).
  destruct F as (_ & F2 & F3 & F4). destruct (F2 o Lo) as [nm N2]. rewrite N2 in N. injection N as <- <-. destruct (F3 o Lo) as [H1 H2]. cbn. unfold own_value. rewrite H1, H2. ring.
Qed.
Lemma presolved_points g g' : presolved_to g g' -> general_ok g -> fresh g -> general_ok g' /\ fresh g' /\ forall x, goptimal g' x -> goptimal g x /\ gcost g x = gcost g' x.
Proof.
  induction 1 as [g|fuel g g1 g2 SR E LN H IH]; intros G F; [auto|].
  pose proof (presolve_spec fuel g G F SR) as P. rewrite E in P. cbn in P.
  pose proof (kept_fresh fuel g g1 G F SR E LN) as F1. destruct (IH (fa_ok _ _ P) F1) as (G2 & F2 & O2). split; [assumption|split; [assumption|]].
  intros x OX. destruct (O2 x OX) as [O1 C1]. destruct (fa_optimal _ _ P x x O1 (fresh_complete g1 x F1)) as [O0 C0]. split; [assumption|congruence].
Qed.
Lemma presolved_again fuel g g1 g2 : general_ok g -> fresh g -> presolved_to g g1 -> safe_run fuel g1 = true -> presolve fuel g1 = Go g2 ->
  forall x val, goptimal g2 x -> completed g2 x val -> goptimal g val /\ gcost g val = gcost g2 x.
Proof.
  intros G F PT SR E x val OX CX. destruct (presolved_points g g1 PT G F) as (G1 & F1 & O1). destruct (presolve_points fuel g1 g2 G1 F1 SR E) as [_ H].
  destruct (H x val OX CX) as [O C]. destruct (O1 val O) as [O0 C0]. split; [assumption|congruence].
Qed.
