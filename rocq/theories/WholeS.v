(** * Network programs with variables without bounds: the standard form keeps them network programs *)
From Verif Require Import SpecWhole SpecVertex TextSolveP PairP FlowI StandardP StandardR VertexG Pipeline PipelineP SolveP WholeP WholeG.
Local Open Scope Qc_scope.

(** a variable that has not been changed, with a domain that has room around numbers that are not whole *)
Definition calm (v : variable) : Prop := v_shift v = 0 /\ v_flipped v = false /\ loose (in_bounds v).
Lemma calm_fold : forall l g g', gpre l g -> (forall j, (j < nr_vars g)%nat -> calm (var g j)) -> foldM split_one l g = Ok g' ->
  (forall j, (j < nr_vars g')%nat -> calm (var g' j)) /\ g_cols g' = g_cols g /\ g_rows g' = g_rows g /\ g_types g' = g_types g /\ g_b g' = g_b g.
Proof.
  induction l as [|j l IH]; intros g g' P V E; cbn [foldM] in E.
  - injection E as <-. split; [exact V|]. repeat split.
  - assert (Lj : (j < nr_vars g)%nat /\ freev (var g j)) by (apply (gp_list _ _ P); now left). destruct Lj as [Lj [Fl Fu]].
    destruct (gp_free _ _ P j (or_introl eq_refl)) as [Ff Fn].
    destruct (split_one_ok g j Lj (gp_from _ _ P) Fn) as (g1 & E1 & HO & HF & HR & HC & HT & HB & HN & HV & HVj & HVn & _).
    rewrite E1 in E. cbn [bind] in E.
    assert (V1 : forall k, (k < nr_vars g1)%nat -> calm (var g1 k)).
    { intros k Lk. rewrite HN in Lk. destruct (Nat.eq_dec k j) as [->|Nk].
      - rewrite HVj. destruct (V j Lj) as (S & N & _). split; [exact S|]. split; [exact N|]. apply bounds_loose; cbn; [intros l0 [= <-]; exact whole_0|congruence].
      - destruct (Nat.eq_dec k (nr_vars g)) as [->|Nk']; [|rewrite HV by lia; apply V; lia].
        rewrite HVn. split; [reflexivity|]. split; [reflexivity|]. apply bounds_loose; cbn; [intros l0 [= <-]; exact whole_0|discriminate]. }
    destruct (IH g1 g' (split_pre _ _ _ _ P E1) V1 E) as (V' & C' & R' & T' & B'). split; [exact V'|]. repeat split; congruence.
Qed.
Lemma opposed_opp b x y : opposed b x y -> opposed b (- x) (- y).
Proof. intros H A B. rewrite H; [destruct b; ring| |]; intros Z; [apply A|apply B]; rewrite Z; ring. Qed.
Lemma unit_opp a : unit_value a -> unit_value (- a).
Proof. intros [-> | [-> | ->]]; [left|right; right|right; left]; ring. Qed.
Lemma split_network side g g1 : general_ok g -> network side g -> (forall j, (j < nr_vars g)%nat -> calm (var g j)) -> split_free g = Ok g1 ->
  (forall j, (j < nr_vars g1)%nat -> calm (var g1 j)) /\ network side g1 /\ g_rows g1 = g_rows g /\ g_types g1 = g_types g /\ g_b g1 = g_b g.
Proof.
  intros P NW V E. pose proof E as E'. unfold split_free in E.
  rewrite (filterM_ok _ (fun j => is_free (var g j))) in E.
  2:{ intros j Hj. apply In_range in Hj. rewrite (index_nth _ _ no_variable); [reflexivity|].
      rewrite (gok_cols _ P) in Hj. unfold nr_vars in Hj. lia. }
  cbn [bind] in E. set (dup := filter _ _) in E.
  assert (Hdup : forall j, In j dup <-> (j < nr_vars g)%nat /\ freev (var g j)).
  { intros j. unfold dup. rewrite filter_In, In_range, is_free_iff, (gok_cols _ P). intuition lia. }
  rewrite (mapM_map _ (fun j => snegate (nth j (g_cols g) []))) in E.
  2:{ intros j Hj. apply Hdup in Hj. rewrite (index_nth _ _ []); [reflexivity|]. rewrite (gok_cols _ P). tauto. }
  cbn [bind] in E. set (g0 := mk_general _ _ _ _ _ _ _ _ _) in E.
  assert (CN : forall j, (j < length (g_cols g0))%nat -> ((j < nr_vars g)%nat /\ nth j (g_cols g0) [] = nth j (g_cols g) []) \/
     exists k, In k dup /\ nth j (g_cols g0) [] = snegate (nth k (g_cols g) [])).
  { intros j L0. cbn [g_cols g0] in *. rewrite app_length, map_length in L0. destruct (Nat.lt_ge_cases j (length (g_cols g))) as [L|L]; [left; rewrite <- (gok_cols _ P); split; [exact L|now apply nth_app_l]|right].
    rewrite app_nth2 by assumption. set (q := (j - length (g_cols g))%nat). set (f := fun j => snegate (nth j (g_cols g) [])).
    assert (Lq : (q < length dup)%nat) by (unfold q; lia).
    exists (nth q dup 0%nat). split; [now apply nth_In|]. rewrite (nth_indep _ [] (f 0%nat)) by now rewrite map_length. now rewrite map_nth. }
  assert (P1 : gpre dup g0).
  { destruct P as [PC PF PT PB PS PR PD PA PSp PFr]. constructor; try assumption.
    - cbn [g_cols g0]. rewrite app_length, map_length. now rewrite PC.
    - intros j Lj. destruct (CN j Lj) as [[L ->]|(k & Hk & ->)]; [now apply PS|].
      apply fwf_snegate. apply PS. now apply Hdup.
    - split; [|exact Hdup]. unfold dup. apply NoDup_filter. apply seq_NoDup.
    - intros j Hj. apply Hdup in Hj. destruct Hj as [Lj [A B]]. exact (PFr j Lj A B).
    - intros t Lt. cbn [g_cols g0]. change (nr_vars g0) with (nr_vars g). rewrite <- PC. rewrite app_nth2 by lia.
      replace (length (g_cols g) + t - length (g_cols g))%nat with t by lia. set (f := fun j => snegate (nth j (g_cols g) [])).
      rewrite (nth_indep _ [] (f 0%nat)) by (rewrite map_length; lia). rewrite map_nth. unfold f.
      rewrite nth_app_l; [reflexivity|]. rewrite PC. apply Hdup. apply nth_In. lia. }
  destruct (calm_fold dup g0 g1 P1 V E) as (V1 & C1 & R1 & T1 & B1). split; [exact V1|]. split; [|now repeat split].
  assert (L1 : nr_vars g1 = length (g_cols g0)).
  { destruct (split_free_corr g P) as (g1' & E1 & [P1' _] & _). rewrite E' in E1. injection E1 as <-. now rewrite <- (gok_cols _ P1'), C1. }
  assert (CC : forall j, (j < nr_vars g1)%nat -> exists k, (k < nr_vars g)%nat /\ ((forall i, coefficient g1 i j = coefficient g i k) \/ forall i, coefficient g1 i j = - coefficient g i k)).
  { intros j Lj. rewrite L1 in Lj. destruct (CN j Lj) as [[L EQ]|(k & Hk & EQ)]; [exists j|exists k]; unfold coefficient; rewrite C1, EQ.
    - split; [exact L|now left].
    - split; [now apply Hdup|right]. intros i. apply den_snegate. }
  change (g_rows g0) with (g_rows g) in R1. constructor.
  - intros i j Li Lj. rewrite R1 in Li. destruct (CC j Lj) as (k & Lk & [H|H]); rewrite H; [|apply unit_opp]; now apply (nt_units _ _ NW).
  - intros i i' j Li Li' N Lj. rewrite R1 in Li, Li'. destruct (CC j Lj) as (k & Lk & [H|H]); rewrite !H; [|apply opposed_opp]; now apply (nt_pairs _ _ NW).
Qed.
Lemma split_again g : general_ok g -> bounded g -> split_free g = Ok g.
Proof.
  intros P B. unfold split_free. assert (F : forall l, (forall j, In j l -> (j < nr_vars g)%nat) -> filterM (fun j => let* v := index (g_vars g) j in Ok (is_free v)) l = Ok []).
  { induction l as [|j l IH]; intros H; cbn [filterM]; [reflexivity|]. rewrite IH by (intros; apply H; now right). pose proof (H j (or_introl eq_refl)) as J. rewrite (index_nth (g_vars g) j no_variable) by exact J. cbn [bind].
    specialize (B j J). unfold var in B. destruct (is_free (nth j (g_vars g) no_variable)) eqn:E; [|reflexivity]. apply is_free_iff in E. contradiction. }
  rewrite F by (intros j J; apply In_range in J; rewrite (gok_cols g P) in J; lia). cbn [bind mapM foldM]. rewrite app_nil_r. now destruct g.
Qed.
Lemma split_same r n fuel g g1 : split_free g = Ok g1 -> split_free g1 = Ok g1 -> solve_general r n fuel g1 = solve_general r n fuel g.
Proof.
  intros E E1. unfold solve_general, standardize, transform_variables. rewrite E, E1. reflexivity.
Qed.

(** ** Whole answers *)
Lemma solve_feasible_extreme r n fuel g s : general_ok g -> bounded g -> solve_general r n fuel g = Ok (Solved_to s) ->
  exists x val, gfeasible g x /\ gextreme g x /\ completed g x val /\
    s_values s = combine (map fst (g_orig g)) (map val (range 0 (length (g_orig g)))).
Proof.
  intros P NF E. unfold solve_general in E. destruct (standardize_spec g P) as (g' & c & F & G & ES & P' & SH & ST).
  rewrite ES in E. cbn [bind fst snd] in E. destruct (derive_spec g' c P' SH) as (d & ED & D). rewrite ED in E. cbn [bind] in E.
  pose proof (md_provider_ok g' c d P' SH D) as PO.
  destruct (run r n fuel (md_provider d)) as [[|z|]| |] eqn:ER; cbn [bind] in E; try discriminate.
  destruct (full_solution fuel g' (reconstruct d z)) as [s'| |] eqn:EF; cbn [bind] in E; try discriminate. injection E as ->.
  destruct (run_optimum r n fuel _ z PO ER) as [[O O0] W]. pose proof (md_optimal g' c d P' SH D _ (conj O O0)) as O'.
  destruct (reconstruct_spec g' c d P' D z W) as [W' R].
  destruct (full_solution_spec _ _ _ _ P' W' EF) as (val & C & V & SO).
  pose proof (md_extreme g' c d P' SH D _ O (run_extreme r n fuel _ z PO ER)) as X.
  exists (F (den (reconstruct d z))), val. split; [|split; [|split]].
  - assert (O'' : goptimal g' (den (reconstruct d z))) by (apply (goptimal_ext g' (den z)); [intros j Lj; symmetry; now apply R|assumption]). apply (sd_back _ _ _ _ ST), O''.
  - apply (standardized_extreme _ _ _ _ _ ST NF). apply (gextreme_ext g' (den z)); [|assumption]. intros j Lj. symmetry. now apply R.
  - now apply (sd_values _ _ _ _ ST).
  - rewrite V, (sd_names _ _ _ _ ST). f_equal. f_equal. f_equal.
    rewrite <- (map_length fst (g_orig g')), (sd_names _ _ _ _ ST). apply map_length.
Qed.
Lemma whole_values r n fuel side g s : general_ok g -> fresh g -> network side g ->
  (forall i, (i < g_rows g)%nat -> loose (rel_holds (row_type g i) (nthq (g_b g) i))) -> (forall j, (j < nr_vars g)%nat -> loose (in_bounds (var g j))) ->
  solve_general r n fuel g = Ok (Solved_to s) -> forall name v, In (name, v) (s_values s) -> whole v.
Proof.
  intros P FR NW RL VL E. destruct (split_free_corr g P) as (g1 & E1 & [P1 B1] & F & G & C).
  assert (V0 : forall j, (j < nr_vars g)%nat -> calm (var g j)) by (intros j Lj; destruct (proj1 (proj2 (proj2 FR)) j Lj) as [S N]; split; [exact S|]; split; [exact N|now apply VL]).
  destruct (split_network side g g1 P NW V0 E1) as (V1 & NW1 & R1 & T1 & Eb).
  assert (BD : bounded g1) by (intros j Lj [X Y]; apply (B1 j Lj); now split).
  rewrite <- (split_same r n fuel g g1 E1 (split_again g1 P1 BD)) in E.
  destruct (solve_feasible_extreme r n fuel g1 s P1 BD E) as (x & val & FE & EX & CO & SV).
  assert (W : forall j, (j < nr_vars g1)%nat -> whole (x j)).
  { apply (vertex_whole side g1 x NW1 FE EX).
    - intros i Li. unfold row_type. rewrite T1, Eb. rewrite R1 in Li. exact (RL i Li).
    - intros j Lj. exact (proj2 (proj2 (V1 j Lj))). }
  assert (OW : forall j, (j < nr_vars g1)%nat -> whole (own_value (var g1 j) (x j))).
  { intros j Lj. destruct (V1 j Lj) as (S & N & _). unfold own_value. rewrite S, N. replace (x j - 0) with (x j) by ring. now apply W. }
  intros name v I. rewrite SV in I. apply in_combine_r in I. apply in_map_iff in I. destruct I as (o & <- & O). apply In_range in O.
  destruct (nth_error (g_orig g1) o) as [[nm e]|] eqn:EO; [|apply nth_error_None in EO; lia]. rewrite (CO o nm e EO).
  destruct e as [j|p q|rm]; cbn [entry_value].
  - apply OW. exact (proj1 (gok_active _ P1 o nm j EO)).
  - destruct (gok_split _ P1 o nm p q EO) as (A & B & _). apply whole_minus; now apply OW.
  - exfalso. apply (co_removed _ _ _ _ _ C) in EO. assert (Lo : (o < nr_vars g)%nat) by (rewrite <- (proj1 FR); apply nth_error_Some; congruence).
    destruct (proj1 (proj2 FR) o Lo) as [nm' X]. congruence.
Qed.
Lemma network_whole r n fuel side g s : general_ok g -> fresh g -> network side g -> whole_data g ->
  solve_general r n fuel g = Ok (Solved_to s) -> forall name v, In (name, v) (s_values s) -> whole v.
Proof.
  intros P FR NW WD. apply (whole_values r n fuel side g s P FR NW).
  - intros i Li. apply rel_loose; [now apply (wd_b _ WD)|]. intros q. now apply (wd_range _ WD).
  - intros j Lj. apply bounds_loose; [intros l; now apply (wd_lower _ WD)|intros u; now apply (wd_upper _ WD)].
Qed.
