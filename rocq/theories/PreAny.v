(** * Presolving in every run: it ends, panics in one way only, and leaves a program that can be solved *)
From Verif Require Import SpecGeneral SparseP LinAlg KindP InitP PermP KeptP CarryP SearchP StandardP StandardQ StandardR RangesP PipelineP PreTerm SpecSizes SizesP.
From Verif Require Export PreSafe PreAgreeWhole PreAgreeTypes.
Local Open Scope Qc_scope.

Lemma run_any fuel g : general_ok g -> fresh g -> any_outcome g (presolve fuel g).
Proof. intros G F. exact (proj2 (presolve_agree no_sites g eq_refl G F fuel)). Qed.
Lemma changes_any fuel g u : general_ok g -> fresh g -> presolve_changes fuel g = Go u -> exists rows s, matrix_ok g rows /\ sturdy g rows s /\ u = i_u s.
Proof.
  intros G F E. unfold presolve_changes in E. destruct (matrix_from g G) as (rows & T & M & RV). rewrite T in E. cbn [lift pbind] in E.
  pose proof (sturdy_start no_sites g G rows M) as ST. destruct (index_new g rows) as [s0|v| |] eqn:IN; cbn [pbind] in E; try discriminate.
  specialize (ST s0 eq_refl). pose proof (sturdy_loop no_sites g eq_refl F rows M fuel 0 s0 ST) as SL. destruct (presolve_loop g rows fuel 0 s0) as [s|v| |] eqn:LO; cbn [pbind] in E; try discriminate.
  injection E as <-. exists rows, s. split; [assumption|]. split; [now apply SL|reflexivity].
Qed.
Lemma any_enough fuel g : general_ok g -> fresh g -> presolve_changes fuel g <> PFuel -> (nr_vars g < fuel)%nat -> presolve fuel g <> PFuel.
Proof.
  intros G F NF L. unfold presolve. destruct (presolve_changes fuel g) as [u|v| |] eqn:E; cbn [pbind]; try congruence.
  destruct (changes_any fuel g u G F E) as (rows & s & M & S & ->). pose proof S as ((B & _) & O & _).
  destruct (reduced_spec g (i_u s) G F (bk_rem_nd _ _ _ _ B) (rem_in g rows s S) (bk_gone_nd _ _ _ _ B) (gone_in g rows s S)) as (g1 & g2 & E1 & E2 & RD).
  rewrite E1. cbn [lift pbind]. rewrite E2. cbn [lift pbind].
  destruct (resolve_total g (i_u s) g2 RD O fuel (bk_rem_nd _ _ _ _ B)) as [g3 E3].
  { apply Nat.le_lt_trans with (nr_vars g); [|assumption]. rewrite <- (map_length fst), <- (seq_length (nr_vars g) 0). apply NoDup_incl_length; [apply (bk_rem_nd _ _ _ _ B)|].
    intros j Hj. apply (rem_in g rows s S) in Hj. apply in_seq. lia. }
  rewrite E3. cbn [lift pbind]. now destruct (get_solution g3).
Qed.
Lemma any_settles g : general_ok g -> fresh g -> exists result fuel0, result <> PFuel /\ forall fuel, (fuel0 <= fuel)%nat -> presolve fuel g = result.
Proof.
  intros G F. destruct (changes_end g) as (r & f0 & NR & H). set (f1 := (f0 + S (nr_vars g))%nat). exists (presolve f1 g), f1.
  assert (N : presolve f1 g <> PFuel) by (apply any_enough; try assumption; [rewrite H by lia; assumption|lia]).
  split; [assumption|]. intros fuel L. unfold presolve in *. assert (X := H f1). pose proof (fun u => changes_any f1 g u G F) as P. rewrite (H f1) in * by lia. rewrite (H fuel) by lia. destruct r as [u|v| |]; cbn [pbind] in *; try reflexivity.
  destruct (P u eq_refl) as (rows & s & M & S & ->). pose proof S as ((B & _) & O & _).
  destruct (reduced_spec g (i_u s) G F (bk_rem_nd _ _ _ _ B) (rem_in g rows s S) (bk_gone_nd _ _ _ _ B) (gone_in g rows s S)) as (g1 & g2 & E1 & E2 & RD).
  rewrite E1 in *. cbn [lift pbind] in *. rewrite E2 in *. cbn [lift pbind] in *. pose proof (resolve_no_panic g (i_u s) g2 RD O f1) as NP.
  destruct (solution_where_possible f1 g2) as [g3| |] eqn:E; cbn [lift pbind] in *; try congruence. now rewrite (resolve_more _ fuel g2 g3 L E).
Qed.
(** ** A run that panics *)
Lemma any_panic fuel g : general_ok g -> fresh g -> presolve fuel g = PPanic -> gets_stuck g.
Proof. intros G F E. pose proof (run_any fuel g G F) as P. now rewrite E in P. Qed.
Lemma any_kept fuel g g' : general_ok g -> fresh g -> presolve fuel g = Go g' ->
  general_ok g' /\ g_objective g' = g_objective g /\ map fst (g_orig g') = map fst (g_orig g) /\ StandardR.acyclic (g_orig g').
Proof. intros G F E. pose proof (run_any fuel g G F) as P. rewrite E in P. destruct P. auto. Qed.
Lemma any_solve n fuel g : general_ok g -> fresh g -> presolve_and_solve UseRows n fuel g = Panic -> gets_stuck g.
Proof.
  intros G F. unfold presolve_and_solve. pose proof (run_any fuel g G F) as P. destruct (presolve fuel g) as [g'|v| |]; cbn [any_outcome] in P; try discriminate; [| |auto].
  - intros E. exfalso. revert E. apply rows_no_panic; [apply (wl_ok _ _ P)|apply (wl_acyclic _ _ P)].
  - now destruct v.
Qed.
Lemma any_solve_lu n fuel g g' : general_ok g -> fresh g -> presolve fuel g = Go g' -> (2 <= inequality_rows g')%nat ->
  presolve_and_solve UseLU n fuel g <> Panic.
Proof.
  intros G F E H. unfold presolve_and_solve. pose proof (run_any fuel g G F) as P. rewrite E in *. exact (lu_two_no_panic n fuel g' (wl_ok _ _ P) (wl_acyclic _ _ P) H).
Qed.
Lemma any_solve_ends g : general_ok g -> fresh g -> exists fuel0 a, (a = Panic /\ gets_stuck g \/ exists v, a = Ok v) /\ forall fuel, (fuel0 <= fuel)%nat -> presolve_and_solve UseRows FirstProfitable fuel g = a.
Proof.
  intros G F. destruct (any_settles g G F) as (r & f0 & N & H). pose proof (run_any f0 g G F) as P. rewrite (H f0) in P by lia. unfold presolve_and_solve.
  destruct r as [g'|v| |]; cbn [any_outcome] in P; try congruence.
  - destruct (rows_terminates g' (wl_ok _ _ P) (wl_acyclic _ _ P)) as (f1 & a & E). exists (f0 + f1)%nat, (Ok a). split; [right; now exists a|]. intros fuel L. rewrite H by lia. apply E. lia.
  - exists f0. destruct v as [| |s]; eexists; (split; [|intros fuel L; rewrite H by lia; reflexivity]); right; eexists; reflexivity.
  - exists f0, Panic. split; [now left|]. intros fuel L. now rewrite H by lia.
Qed.

(** ** Programs with inequalities only *)
Lemma inequalities_calm fuel g : general_ok g -> fresh g -> inequalities g -> presolve fuel g <> PPanic.
Proof. intros G F Q E. apply (never_stuck g G F Q). now apply (any_panic fuel). Qed.
Lemma inequalities_solve g : general_ok g -> fresh g -> inequalities g ->
  (forall n fuel, presolve_and_solve UseRows n fuel g <> Panic) /\
  exists fuel0 a, forall fuel, (fuel0 <= fuel)%nat -> presolve_and_solve UseRows FirstProfitable fuel g = Ok a.
Proof.
  intros G F Q. split; [intros n fuel E; apply (never_stuck g G F Q); now apply (any_solve n fuel)|].
  destruct (any_solve_ends g G F) as (f0 & a & [[-> K]|[v ->]] & H); [now apply (never_stuck g G F Q) in K|]. now exists f0, v.
Qed.
