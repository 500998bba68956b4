(** * Presolving a network program with whole numbers: what is left is one again *)
From Verif Require Import PreOrder PreTerm StandardP StandardR SparseP KeptP LinAlg PreAny PreKept PreResolve Pipeline SpecVertex FSidesP.
From Verif Require Import SpecWhole Whole WholeP WholeG WholeS WholePre.
Local Open Scope Qc_scope.

(** ** Only the end of presolving reports a solution *)
Definition silent {A} (x : pr A) : Prop := forall s, x <> Stop (VOptimum s).
Lemma silent_bind {A B} (x : pr A) (f : A -> pr B) : silent x -> (forall a, silent (f a)) -> silent (pbind x f).
Proof. intros H K s E. destruct x as [a|v| |]; cbn in E; try discriminate; [exact (K a s E)|]. apply (H s). congruence. Qed.
Lemma silent_fold {A B} (f : A -> B -> pr A) l : (forall a b, silent (f a b)) -> forall a, silent (foldP f l a).
Proof. intros K. induction l as [|b l IH]; intros a; cbn; [discriminate|]. now apply silent_bind. Qed.
Ltac sil := repeat (intros; cbv beta zeta; first
  [ assumption
  | match goal with |- silent (Go _) => discriminate | |- silent (Stop VInfeasible) => discriminate | |- silent (Stop VUnbounded) => discriminate
      | |- silent PPanic => discriminate | |- silent PFuel => discriminate | |- silent (unwrap ?o) => destruct o; discriminate
      | |- silent (lift ?o) => destruct o; discriminate | |- silent (dec ?l ?i) => unfold dec; destruct (nth i l _); discriminate end
  | solve [auto 2 with silence]
  | apply silent_bind
  | apply silent_fold
  | match goal with |- silent (match ?x with _ => _ end) => destruct x | |- silent ((match ?x with _ => _ end) _) => destruct x end ]).
Create HintDb silence.
Lemma silent_dec_var s j : silent (dec_var s j). Proof. unfold dec_var. sil. Qed.
Lemma silent_dec_con s j : silent (dec_con s j). Proof. unfold dec_con. sil. Qed.
Lemma silent_dec_act s i d : silent (dec_act s i d). Proof. unfold dec_act. sil. Qed.
#[export] Hint Resolve silent_dec_var silent_dec_con silent_dec_act : silence.
Section Silent.
Variables (g : general) (rows : list svec).
Lemma silent_optimize c l h : silent (optimize_column g c l h). Proof. unfold optimize_column. sil. Qed.
Hint Resolve silent_optimize : silence.
Lemma silent_queue_variable s j : silent (queue_variable g s j). Proof. unfold queue_variable. sil. Qed.
Lemma silent_queue_constraint s j : silent (queue_constraint g s j). Proof. unfold queue_constraint. sil. Qed.
Lemma silent_counters s j d : silent (update_activity_counters g s j d). Proof. unfold update_activity_counters, lower_counter. sil. Qed.
Hint Resolve silent_queue_variable silent_queue_constraint silent_counters : silence.
Lemma silent_apply s j d c : silent (apply_change g s j d c). Proof. unfold apply_change, after_bound_change. sil. Qed.
Lemma silent_decide d t b a : silent (decide d t b a).
Proof. intros s. unfold decide. destruct (b ?= a), d, t; try discriminate; destruct (a ?= _); discriminate. Qed.
Hint Resolve silent_apply silent_decide : silence.
Lemma silent_fixed s j : silent (fixed_variable_rule g s j). Proof. unfold fixed_variable_rule. sil. Qed.
Lemma silent_bound s j : silent (bound_constraint_rule g rows s j). Proof. unfold bound_constraint_rule. sil. Qed.
Lemma silent_slack s j : silent (slack_rule g rows s j). Proof. unfold slack_rule, slack_activity. sil. Qed.
Lemma silent_set s i d : silent (set_to_bound g rows s i d). Proof. unfold set_to_bound. sil. Qed.
Lemma silent_drop s i : silent (remove_constraint_values g rows s i). Proof. unfold remove_constraint_values. sil. Qed.
Lemma silent_part s i rhs a d made : silent (variable_part g rows s i rhs a d made). Proof. unfold variable_part. sil. Qed.
Lemma silent_sum u d row : silent (activity_sum g u d row). Proof. unfold activity_sum. sil. Qed.
Hint Resolve silent_fixed silent_bound silent_slack silent_set silent_drop silent_part silent_sum : silence.
Lemma silent_constraint s i d a : silent (constraint_part g rows s i d a). Proof. unfold constraint_part. sil. Qed.
Lemma silent_activity s i d : silent (activity_bound g rows s i d). Proof. unfold activity_bound. sil. Qed.
Hint Resolve silent_constraint silent_activity : silence.
Lemma silent_propagation s i d : silent (domain_propagation_rule g rows s i d). Proof. unfold domain_propagation_rule, propagate_row, bound_one. sil. Qed.
Hint Resolve silent_propagation : silence.
Lemma silent_step s : silent (presolve_step g rows s). Proof. unfold presolve_step. sil. Qed.
Lemma silent_remaining u : silent (nr_remaining g u). Proof. unfold nr_remaining. sil. Qed.
Hint Resolve silent_step silent_remaining : silence.
Lemma silent_loop : forall fuel stale s, silent (presolve_loop g rows fuel stale s).
Proof. induction fuel as [|fuel IH]; intros stale s; cbn [presolve_loop]; sil; apply IH. Qed.
Lemma silent_new : silent (index_new g rows). Proof. unfold index_new, updates_new, empty_column, empty_row. sil. Qed.
End Silent.
Lemma silent_changes fuel g : silent (presolve_changes fuel g).
Proof. unfold presolve_changes. pose proof silent_new. pose proof silent_loop. sil; auto. Qed.

(** ** The numbers of a network program with whole numbers *)
Section Left.
Variables (side : nat -> bool) (g : general).
Hypothesis P : general_ok g.
Hypothesis FR : fresh g.
Hypothesis NW : network side g.
Hypothesis WD : whole_data g.
Lemma data_b i : whole (nthq (g_b g) i).
Proof using P WD. destruct (Nat.lt_ge_cases i (g_rows g)) as [L|L]; [now apply (wd_b _ WD)|]. unfold nthq. rewrite nth_overflow; [exact whole_0|]. now rewrite (gok_b _ P). Qed.
Lemma data_t i r : nth i (g_types g) Equal = Range r -> whole r.
Proof using P WD. destruct (Nat.lt_ge_cases i (g_rows g)) as [L|L]; [now apply (wd_range _ WD)|]. rewrite nth_overflow; [discriminate|]. now rewrite (gok_types _ P). Qed.
Lemma gvar_var j : (j < nr_vars g)%nat -> gvar g j = var g j.
Proof using. clear. intros L. unfold gvar, var. now apply nth_indep. Qed.
Lemma data_v j d x : vbound (gvar g j) d = Some x -> whole x.
Proof using WD.
  destruct (Nat.lt_ge_cases j (nr_vars g)) as [L|L].
  - rewrite gvar_var by exact L. destruct d; cbn; [now apply (wd_lower _ WD)|now apply (wd_upper _ WD)].
  - unfold gvar. rewrite nth_overflow by exact L. destruct d; discriminate.
Qed.
Lemma data_c j i c : In (i, c) (nth j (g_cols g) []) -> unit_value c.
Proof using P NW.
  intros I. destruct (Nat.lt_ge_cases j (nr_vars g)) as [L|L].
  - pose proof (gok_sorted _ P j L) as W. destruct (den_In _ _ _ _ _ W I) as (E & _ & B). rewrite <- E. now apply (nt_units _ _ NW).
  - rewrite nth_overflow in I by now rewrite (gok_cols _ P). contradiction.
Qed.
Lemma changes_even fuel u : presolve_changes fuel g = Go u -> exists rows s, matrix_ok g rows /\ sturdy g rows s /\ u = i_u s /\ even_u g u.
Proof using P FR NW WD.
  intros E. unfold presolve_changes in E. destruct (matrix_from g P) as (rows & T & M & RV). rewrite T in E. cbn [lift pbind] in E.
  assert (Wr : forall i j c, In (j, c) (nth i rows []) -> unit_value c) by (intros i j c I; apply (mo_in _ _ M) in I; exact (data_c j i c I)).
  pose proof (sturdy_start PresolveD.no_sites g P rows M) as ST. pose proof (even_start g rows data_b data_t data_v) as ES. destruct (index_new g rows) as [s0|v| |] eqn:IN; cbn [pbind] in E; try discriminate.
  specialize (ST s0 eq_refl). specialize (ES s0 eq_refl). pose proof (sturdy_loop PresolveD.no_sites g eq_refl FR rows M fuel 0 s0 ST) as SL.
  pose proof (even_loop g rows data_v data_c Wr fuel 0 s0 ES) as EL.
  destruct (presolve_loop g rows fuel 0 s0) as [s|v| |] eqn:LO; cbn [pbind] in E; try discriminate.
  injection E as <-. exists rows, s. split; [assumption|]. split; [now apply SL|]. split; [reflexivity|]. apply (EL s eq_refl).
Qed.
End Left.

(** ** Answers of programs from which variables have been removed *)
Definition tidy_orig (g : general) : Prop := forall o name r, nth_error (g_orig g) o = Some (name, Removed r) -> tidy r.
Lemma combination_whole (val : vec) : forall l, (forall k a, In (k, a) l -> unit_value a /\ whole (val k)) -> whole (combination l val).
Proof.
  induction l as [|[k a] l IH]; intros H; cbn [combination]; [exact whole_0|]. destruct (H k a (or_introl eq_refl)) as [U W].
  apply whole_plus; [now apply whole_by_unit|]. apply IH. intros k' a' I. apply H. now right.
Qed.
Lemma whole_values_left r n fuel side g s : general_ok g -> network side g ->
  (forall i, (i < g_rows g)%nat -> loose (rel_holds (row_type g i) (nthq (g_b g) i))) -> (forall j, (j < nr_vars g)%nat -> calm (var g j)) ->
  tidy_orig g -> StandardR.acyclic (g_orig g) ->
  solve_general r n fuel g = Ok (Solved_to s) -> forall name v, In (name, v) (s_values s) -> whole v.
Proof.
  intros P NW RL V0 TO [rank AC] E. destruct (split_free_corr g P) as (g1 & E1 & [P1 B1] & F & G & C).
  destruct (split_network side g g1 P NW V0 E1) as (V1 & NW1 & R1 & T1 & Eb).
  assert (BD : bounded g1) by (intros j Lj [X Y]; apply (B1 j Lj); now split).
  rewrite <- (split_same r n fuel g g1 E1 (split_again g1 P1 BD)) in E.
  destruct (solve_feasible_extreme r n fuel g1 s P1 BD E) as (x & val & FE & EX & CO & SV).
  assert (W : forall j, (j < nr_vars g1)%nat -> whole (x j)).
  { apply (vertex_whole side g1 x NW1 FE EX).
    - intros i Li. unfold row_type. rewrite T1, Eb. rewrite R1 in Li. exact (RL i Li).
    - intros j Lj. exact (proj2 (proj2 (V1 j Lj))). }
  assert (OW : forall j, (j < nr_vars g1)%nat -> whole (own_value (var g1 j) (x j))).
  { intros j Lj. destruct (V1 j Lj) as (S & N & _). unfold own_value. rewrite S, N. replace (x j - 0) with (x j) by ring. now apply W. }
  assert (LL : length (g_orig g1) = length (g_orig g)) by (rewrite <- (map_length fst), (co_names _ _ _ _ _ C); apply map_length).
  assert (K : forall k o, (rank o < k)%nat -> (o < length (g_orig g1))%nat -> whole (val o)).
  { induction k as [|k IH]; intros o Rk Lo; [lia|]. destruct (nth_error (g_orig g1) o) as [[nm e]|] eqn:EO; [|apply nth_error_None in EO; lia]. rewrite (CO o nm e EO).
    destruct e as [j|p q|rm]; cbn [entry_value].
    - apply OW. exact (proj1 (gok_active _ P1 o nm j EO)).
    - destruct (gok_split _ P1 o nm p q EO) as (A & B & _). apply whole_minus; now apply OW.
    - apply (co_removed _ _ _ _ _ C) in EO. pose proof (TO o nm rm EO) as T. destruct rm as [v|c l]; cbn [tidy] in T; [exact T|]. destruct T as [Tc Tl].
      apply whole_minus; [exact Tc|]. apply combination_whole. intros j a I. split; [exact (Tl j a I)|]. destruct (AC o nm c l j a EO I) as [A B]. apply IH; lia. }
  intros name v I. rewrite SV in I. apply in_combine_r in I. apply in_map_iff in I. destruct I as (o & <- & O). apply In_range in O. apply (K (S (rank o)) o); lia.
Qed.

(** ** What is left *)
Lemma known_tidy orig : (forall o name r, nth_error orig o = Some (name, Removed r) -> tidy r) -> forall fuel o v, value_if_known fuel orig o = Ok (Some v) -> whole v.
Proof.
  intros T. induction fuel as [|fuel IH]; intros o v E; [discriminate|]. rewrite value_if_known_S in E. destruct (index orig o) as [[nm e]| |] eqn:I; cbn [bind snd] in E; try discriminate.
  apply index_ok in I. destruct e as [j|p q|r]; try discriminate. pose proof (T o nm r I) as TR. destruct r as [w|c l]; cbn [tidy] in TR; [injection E as <-; exact TR|]. destruct TR as [Tc Tl].
  destruct (foldM (known_part fuel orig) l (Some 0)) as [[t|]| |] eqn:X; cbn [bind] in E; try discriminate. injection E as <-. apply whole_minus; [exact Tc|].
  assert (K : forall l a t, (forall k a, In (k, a) l -> unit_value a) -> (forall y, a = Some y -> whole y) -> foldM (known_part fuel orig) l a = Ok (Some t) -> whole t).
  { clear -IH. induction l as [|[j c] l IHl]; intros a t U A E; cbn [foldM] in E; [apply A; congruence|]. destruct (known_part fuel orig a (j, c)) as [a'| |] eqn:KP; cbn [bind] in E; try discriminate.
    apply (IHl a' t); [intros k b I; apply (U k b); now right| |exact E]. intros y ->. unfold known_part in KP. destruct a as [y0|]; [|discriminate].
    destruct (value_if_known fuel orig j) as [[w|]| |] eqn:V; cbn [bind] in KP; try discriminate. injection KP as <-. apply whole_plus; [now apply A|]. apply whole_by_unit; [apply (U j c); now left|exact (IH j w V)]. }
  apply (K l (Some 0) t Tl); [intros y [= <-]; exact whole_0|exact X].
Qed.
Section After.
Variables (side : nat -> bool) (g : general).
Hypothesis P : general_ok g.
Hypothesis FR : fresh g.
Hypothesis NW : network side g.
Hypothesis WD : whole_data g.
Variables (u : updates) (fuel : nat) (g2 g3 : general).
Hypothesis EV : even_u g u.
Hypothesis rem_nd : NoDup (map fst (u_removed u)).
Hypothesis gone_nd : NoDup (u_gone u).
Hypothesis RD : reduces g u g2.
Hypothesis RS : resolves fuel g2 g3.
Lemma after_tidy2 : tidy_orig g2.
Proof using EV RD.
  intros o nm r E. assert (Lo : (o < nr_vars g)%nat) by (rewrite <- (rd_no _ _ _ RD); apply nth_error_Some; congruence).
  destruct (rd_orig _ _ _ RD o Lo) as (name & _ & A & B). destruct (in_dec Nat.eq_dec o (map fst (u_removed u))) as [I|N].
  - apply in_map_iff in I. destruct I as ([o' r'] & X & I). cbn in X. subst o'. rewrite (A r' I) in E. injection E as _ <-. exact (ev_removed _ _ EV o r' I).
  - assert (I : In o (vars_in g u)) by (apply vars_in_In; now split). destruct (In_nth _ _ 0%nat I) as (j & Lj & Ej). rewrite (B j Lj Ej) in E. discriminate.
Qed.
Lemma after_tidy : tidy_orig g3.
Proof using EV RD RS.
  intros o nm r E. assert (Lo : (o < length (g_orig g2))%nat) by (rewrite <- (rs_no _ _ _ RS); apply nth_error_Some; congruence).
  destruct (nth_error (g_orig g2) o) as [[nm2 e]|] eqn:E2; [|apply nth_error_None in E2; lia]. destruct (rs_orig _ _ _ RS o nm2 e E2) as (e' & E3 & R). rewrite E in E3. injection E3 as <- <-.
  destruct e as [j|p q|[v|c l]]; cbn [resolved_entry] in R; try discriminate.
  - injection R as ->. exact (after_tidy2 o nm _ E2).
  - destruct R as (k & V & R). destruct k as [w|]; injection R as ->; [exact (known_tidy (g_orig g2) after_tidy2 fuel o w V)|exact (after_tidy2 o nm _ E2)].
Qed.
Lemma after_row i : (i < g_rows g3)%nat -> (i < length (rows_in g u))%nat /\ (nth i (rows_in g u) 0 < g_rows g)%nat.
Proof using RD RS.
  intros L. rewrite (rs_rows _ _ _ RS), (rd_rows _ _ _ RD) in L. split; [exact L|]. pose proof (nth_In _ 0%nat L) as I. apply rows_in_In in I. tauto.
Qed.
Lemma after_var j : (j < nr_vars g3)%nat -> (j < length (vars_in g u))%nat /\ (nth j (vars_in g u) 0 < nr_vars g)%nat.
Proof using RD RS.
  intros L. unfold nr_vars in L. rewrite (rs_vars _ _ _ RS) in L. fold (nr_vars g2) in L. rewrite (rd_vars _ _ _ RD) in L. split; [exact L|]. pose proof (nth_In _ 0%nat L) as I. apply vars_in_In in I. tauto.
Qed.
Lemma after_coefficient i j : (i < g_rows g3)%nat -> (j < nr_vars g3)%nat -> coefficient g3 i j = coefficient g (nth i (rows_in g u) 0%nat) (nth j (vars_in g u) 0%nat).
Proof using P RD RS gone_nd.
  intros Li Lj. destruct (after_row i Li) as [A1 A2]. destruct (after_var j Lj) as [B1 B2]. unfold coefficient. rewrite (rs_cols _ _ _ RS), (rd_col _ _ _ RD j B1).
  apply (den_sremove (g_rows g)); [apply (increasing_nd 0); now apply rows_out_inc| |exact A1]. intros k v I. exact (wfs_In_lt _ _ _ _ (gok_sorted _ P _ B2) I).
Qed.
Lemma after_network : network (fun i => side (nth i (rows_in g u) 0%nat)) g3.
Proof using P NW RD RS gone_nd.
  constructor.
  - intros i j Li Lj. rewrite after_coefficient by assumption. apply (nt_units _ _ NW); [now apply after_row|now apply after_var].
  - intros i i' j Li Li' N Lj. rewrite !after_coefficient by assumption. apply (nt_pairs _ _ NW); [now apply after_row|now apply after_row| |now apply after_var].
    intros X. apply N. apply (proj1 (NoDup_nth (rows_in g u) 0%nat)); [apply kept_NoDup|now apply after_row|now apply after_row|exact X].
Qed.
Lemma after_rows i : (i < g_rows g3)%nat -> loose (rel_holds (row_type g3 i) (nthq (g_b g3) i)).
Proof using EV RD RS.
  intros Li. destruct (after_row i Li) as [A1 A2]. unfold row_type. rewrite (rs_types _ _ _ RS), (rs_b _ _ _ RS). fold (row_type g2 i). rewrite (rd_type _ _ _ RD i A1), (rd_b _ _ _ RD i A1).
  apply rel_loose; [apply (ev_b _ _ EV)|apply (ev_t _ _ EV)].
Qed.
Lemma final_whole j d x : final_bound g u j d = Some x -> whole x.
Proof using EV WD.
  unfold final_bound. destruct (u_bounds u j d) as [y|] eqn:E; [intros [= <-]; exact (ev_bounds _ _ EV _ _ _ E)|].
  destruct (vbound (gvar g j) Lower), (vbound (gvar g j) Upper), (u_bounds u j Lower), (u_bounds u j Upper); try apply (data_v g WD); apply (ev_acts _ _ EV).
Qed.
Lemma after_vars j : (j < nr_vars g3)%nat -> calm (var g3 j).
Proof using EV WD RD RS.
  intros Lj. destruct (after_var j Lj) as [B1 B2]. unfold var. rewrite (rs_vars _ _ _ RS). fold (var g2 j). destruct (rd_var _ _ _ RD j B1) as (_ & L & U & S & N).
  split; [exact S|]. split; [exact N|]. apply bounds_loose; [rewrite L|rewrite U]; intros x; apply final_whole.
Qed.
End After.
Lemma solved_whole : forall l vs, (forall nm r, In (nm, Removed r) l -> tidy r) -> all_solved l = Some vs -> forall name v, In (name, v) vs -> whole v.
Proof.
  induction l as [|[nm e] l IH]; intros vs T E name v I; cbn [all_solved] in E; [injection E as <-; contradiction|].
  destruct e as [j|p q|[w|c cs]]; try discriminate. destruct (all_solved l) as [vs'|]; cbn in E; [|discriminate]. injection E as <-. destruct I as [[= <- <-]|I]; [exact (T nm (Solved w) (or_introl eq_refl))|].
  apply (IH vs' (fun nm r J => T nm r (or_intror J)) eq_refl name v I).
Qed.
Lemma presolved_whole r n fuel side g s : general_ok g -> fresh g -> network side g -> whole_data g ->
  presolve_and_solve r n fuel g = Ok (Solved_to s) -> forall name v, In (name, v) (s_values s) -> whole v.
Proof.
  intros P FR NW WD E. unfold presolve_and_solve in E. pose proof (fun g' => any_kept fuel g g' P FR) as AK.
  destruct (presolve fuel g) as [g'|vd| |] eqn:EP; try discriminate.
  - specialize (AK g' eq_refl). unfold presolve in EP.
    destruct (presolve_changes fuel g) as [u|vd| |] eqn:EC; cbn [pbind] in EP; try discriminate.
    destruct (changes_even side g P FR NW WD fuel u EC) as (rows & st & M & SD & -> & EV). pose proof SD as ((B & _) & _ & _).
    destruct (reduced_spec g (i_u st) P FR (bk_rem_nd _ _ _ _ B) (rem_in g rows st SD) (bk_gone_nd _ _ _ _ B) (gone_in g rows st SD)) as (g1 & g2 & E1 & E2 & RD).
    rewrite E1 in EP. cbn [lift pbind] in EP. rewrite E2 in EP. cbn [lift pbind] in EP.
    destruct (solution_where_possible fuel g2) as [g3| |] eqn:E3; cbn [lift pbind] in EP; try discriminate. destruct (get_solution g3); [discriminate|]. injection EP as ->.
    pose proof (resolve_spec fuel g2 g' E3) as RS. destruct AK as (P' & _ & _ & AC).
    exact (whole_values_left r n fuel _ g' s P' (after_network side g P NW (i_u st) fuel g2 g' (bk_gone_nd _ _ _ _ B) RD RS) (after_rows g (i_u st) fuel g2 g' EV RD RS)
      (after_vars g WD (i_u st) fuel g2 g' EV RD RS) (after_tidy g (i_u st) fuel g2 g' EV RD RS) AC E).
  - destruct vd as [| |s']; try discriminate. injection E as ->. unfold presolve in EP.
    destruct (presolve_changes fuel g) as [u|vd| |] eqn:EC; cbn [pbind] in EP; try discriminate.
    2:{ injection EP as ->. now apply silent_changes in EC. }
    destruct (changes_even side g P FR NW WD fuel u EC) as (rows & st & M & SD & -> & EV). pose proof SD as ((B & _) & _ & _).
    destruct (reduced_spec g (i_u st) P FR (bk_rem_nd _ _ _ _ B) (rem_in g rows st SD) (bk_gone_nd _ _ _ _ B) (gone_in g rows st SD)) as (g1 & g2 & E1 & E2 & RD).
    rewrite E1 in EP. cbn [lift pbind] in EP. rewrite E2 in EP. cbn [lift pbind] in EP.
    destruct (solution_where_possible fuel g2) as [g3| |] eqn:E3; cbn [lift pbind] in EP; try discriminate. destruct (get_solution g3) as [sol|] eqn:ES; [|discriminate]. injection EP as ->.
    pose proof (resolve_spec fuel g2 g3 E3) as RS. unfold get_solution in ES. destruct (all_solved (g_orig g3)) as [vs|] eqn:AS; [|discriminate]. cbn in ES. injection ES as <-. cbn [s_values].
    apply (solved_whole (g_orig g3)); [|exact AS]. intros nm r0 I. apply In_nth_error in I. destruct I as [o I]. exact (after_tidy g (i_u st) fuel g2 g3 EV RD RS o nm r0 I).
Qed.
