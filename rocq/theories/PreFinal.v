(** * Presolving on safe runs: what is left has the same solutions *)
From Verif Require Import SpecGeneral SparseP LinAlg KindP InitP PermP KeptP CarryP SearchP StandardP StandardQ StandardR RangesP PipelineP.
From Verif Require Export PreResolve.
Local Open Scope Qc_scope.
Local Notation kept := CarryP.kept.

(** ** Points of the program that is left *)
Section Left.
Variables (g : general) (rows : list svec) (s : pindex) (g2 : general).
Local Notation n := (nr_vars g).
Local Notation m := (g_rows g).
Local Notation u := (i_u s).
Local Notation w := (view_of s).
Local Notation row i := (nth i rows []).
Local Notation col j := (nth j (g_cols g) []).
Local Notation K := (vars_in g u).
Local Notation KR := (rows_in g u).
Hypothesis G : general_ok g.
Hypothesis F : fresh g.
Hypothesis M : matrix_ok g rows.
Hypothesis RV : forall i x, (i < m)%nat -> combination (row i) x = row_value g x i.
Hypothesis T : tidy g rows nobody s.
Hypothesis I : implied g rows w.
Hypothesis D : domains g s.
Hypothesis S : step g rows (whole g) w.
Hypothesis RD : reduces g u g2.

Lemma K_active j : In j K <-> on_var w j = true.
Proof.
  rewrite vars_in_In, (td_rem _ _ _ _ T), on_var_cv. unfold nobody. split.
  - intros [H1 H2] H3. apply H2. auto.
  - intros H. split; [now apply (cv_lt _ _ _ _ _ T)|]. intros (_ & X & _). contradiction.
Qed.
Lemma KR_active i : In i KR <-> on_row w i = true.
Proof.
  rewrite rows_in_In, (td_gone _ _ _ _ T), on_row_cc. split.
  - intros [H1 H2] H3. apply H2. auto.
  - intros H. split; [now apply (cc_lt _ _ _ _ _ T)|]. intros (_ & X). contradiction.
Qed.
Lemma nth_K j : (j < length K)%nat -> (nth j K 0 < n)%nat /\ on_var w (nth j K 0%nat) = true.
Proof. intros L. assert (X : In (nth j K 0%nat) K) by now apply nth_In. split; [now apply vars_in_In in X|now apply K_active]. Qed.
Lemma nth_KR i : (i < length KR)%nat -> (nth i KR 0 < m)%nat /\ on_row w (nth i KR 0%nat) = true.
Proof. intros L. assert (X : In (nth i KR 0%nat) KR) by now apply nth_In. split; [now apply rows_in_In in X|now apply KR_active]. Qed.
Lemma sum_K (f : vec) : (forall j, (j < n)%nat -> on_var w j = false -> f j = 0) -> sum n f = sum (length K) (fun j => f (nth j K 0%nat)).
Proof.
  intros H. apply sum_kept. intros j L O. apply H; [assumption|]. destruct (on_var w j) eqn:E; [|reflexivity]. apply K_active in E. apply vars_in_In in E.
  exfalso. apply (proj2 E). now apply vars_out_In.
Qed.
Lemma combination_only p l x : NoDup (map fst l) -> (forall j c, In (j, c) l -> (j < n)%nat) -> combination (only p l) x = combination l (fun j => if p j then x j else 0).
Proof.
  intros _ _. induction l as [|[j c] l IH]; [reflexivity|]. unfold only. cbn [filter combination]. fold (only p l). destruct (p j); cbn [combination]; rewrite IH; [reflexivity|ring].
Qed.
Lemma left_row i x y : (i < length KR)%nat -> (forall j, (j < length K)%nat -> x j = y (nth j K 0%nat)) ->
  row_value g2 x i = combination (only (on_var w) (row (nth i KR 0%nat))) y.
Proof.
  intros L E. set (k := nth i KR 0%nat). destruct (nth_KR i L) as [Lk Ok]. fold k in Lk, Ok.
  rewrite combination_only; [|apply (mo_nd_row _ _ M)|intros j c H; apply (mo_in _ _ M) in H; now apply (mo_lt _ _ _ _ _ M) in H].
  rewrite (RV k _ Lk). unfold row_value. rewrite (rd_vars _ _ _ RD). rewrite sum_K by (intros j _ H; rewrite H; ring). apply sum_ext. intros j Lj.
  destruct (nth_K j Lj) as [Ln On]. rewrite On, E by assumption. f_equal. unfold coefficient. rewrite (rd_col _ _ _ RD j Lj).
  apply (den_sremove m); [apply (increasing_nd 0), rows_out_inc, (td_gone_nd _ _ _ _ T)| |exact L].
  intros i' v H. now apply (mo_lt _ _ _ _ _ M) in H.
Qed.
Lemma final_cases j d : final_bound g u j d = pbound g u j d \/ (pbound g u j d = None /\ final_bound g u j d = u_acts u j d).
Proof.
  unfold final_bound, pbound. destruct (u_bounds u j d) as [v|] eqn:B; [now left|].
  destruct (vbound (gvar g j) Lower) eqn:E1, (vbound (gvar g j) Upper) eqn:E2, (u_bounds u j Lower) eqn:E3, (u_bounds u j Upper) eqn:E4; try (now left).
  right. split; [now destruct d|reflexivity].
Qed.
Lemma final_weaker j d v : final_bound g u j d = Some v -> exists a, bound_of g u j d = Some a /\ bound_holds d v a.
Proof.
  intros E. destruct (final_cases j d) as [C|[C1 C2]].
  - rewrite C in E. destruct (bound_of g u j d) as [a|] eqn:B.
    + exists a. split; [reflexivity|]. exact (td_tight _ _ _ _ T j d a v B E).
    + exfalso. rewrite bound_of_cases, E in B. destruct (u_acts u j d); discriminate.
  - rewrite C2 in E. exists v. unfold bound_of. rewrite E. split; [reflexivity|]. destruct d; cbn; qlra.
Qed.
Lemma left_bounds j x : (j < length K)%nat -> within g u (nth j K 0%nat) x -> in_bounds (var g2 j) x.
Proof.
  intros L W. destruct (rd_var _ _ _ RD j L) as (_ & EL & EU & _). set (k := nth j K 0%nat) in *.
  assert (X : forall d v, final_bound g u k d = Some v -> bound_holds d v x).
  { intros d v E. destruct (final_weaker k d v E) as (a & B & H). specialize (W d a B). destruct d; cbn in *; qlra. }
  split; [rewrite EL; exact (X Lower)|rewrite EU; exact (X Upper)].
Qed.
Lemma bounds_left j x : (j < length K)%nat -> in_bounds (var g2 j) x -> pwithin g u (nth j K 0%nat) x.
Proof.
  intros L [B1 B2] d v E. destruct (rd_var _ _ _ RD j L) as (_ & EL & EU & _). set (k := nth j K 0%nat) in *.
  assert (X : final_bound g u k d = Some v) by (destruct (final_cases k d) as [C|[C _]]; congruence).
  destruct d; [apply B1; congruence|apply B2; congruence].
Qed.
Lemma left_feasible x y : (forall j, (j < length K)%nat -> x j = y (nth j K 0%nat)) -> (gfeasible g2 x <-> feas g rows w y).
Proof.
  intros E. split.
  - intros [F1 F2]. rewrite (rd_rows _ _ _ RD) in F1. rewrite (rd_vars _ _ _ RD) in F2. split.
    + intros j O. apply K_active in O. apply (In_nth _ _ 0%nat) in O. destruct O as (k & L & <-). rewrite <- E by assumption. now apply bounds_left, F2.
    + intros i O. apply KR_active in O. apply (In_nth _ _ 0%nat) in O. destruct O as (k & L & <-). specialize (F1 k L).
      rewrite (rd_type _ _ _ RD k L), (rd_b _ _ _ RD k L), (left_row k x y L E) in F1. exact F1.
  - intros FE. pose proof (I y FE) as W. destruct FE as [F1 F2]. split.
    + rewrite (rd_rows _ _ _ RD). intros i L. rewrite (rd_type _ _ _ RD i L), (rd_b _ _ _ RD i L), (left_row i x y L E). apply F2. now apply nth_KR.
    + rewrite (rd_vars _ _ _ RD). intros j L. apply left_bounds; [assumption|]. rewrite E by assumption. apply W. now apply nth_K.
Qed.
Lemma left_cost x y : (forall j, (j < length K)%nat -> x j = y (nth j K 0%nat)) -> gcost g2 x = vcost g w y.
Proof.
  intros E. unfold gcost, vcost. rewrite (rd_fixed _ _ _ RD), (rd_vars _ _ _ RD). f_equal. rewrite sum_K by (intros j _ H; now rewrite H).
  apply sum_ext. intros j L. destruct (nth_K j L) as [Ln On]. rewrite On, E by assumption. destruct (rd_var _ _ _ RD j L) as (-> & _). reflexivity.
Qed.
Definition restrict (y : vec) : vec := fun j => y (nth j K 0%nat).
Definition extend (x : vec) : vec := fun k => x (pos (vars_out u) k).
Lemma extend_K x j : (j < length K)%nat -> x j = extend x (nth j K 0%nat).
Proof. intros L. unfold extend, vars_in. rewrite pos_nth; [reflexivity| |exact L]. apply (increasing_nd 0), vars_out_inc, (td_rem_nd _ _ _ _ T). Qed.

Lemma left_ok : general_ok g2.
Proof.
  destruct F as (F1 & F2 & F3 & F4). constructor.
  - rewrite (rd_nc _ _ _ RD). symmetry. apply (rd_vars _ _ _ RD).
  - rewrite (rd_from _ _ _ RD). symmetry. apply (rd_vars _ _ _ RD).
  - rewrite (rd_nt _ _ _ RD). symmetry. apply (rd_rows _ _ _ RD).
  - rewrite (rd_nb _ _ _ RD). symmetry. apply (rd_rows _ _ _ RD).
  - rewrite (rd_vars _ _ _ RD), (rd_rows _ _ _ RD). intros j L. rewrite (rd_col _ _ _ RD j L). apply wfs_sremove; [apply (increasing_nd 0), rows_out_inc, (td_gone_nd _ _ _ _ T)|].
    apply (gok_sorted _ G). now apply nth_K.
  - rewrite (rd_rows _ _ _ RD). intros i r L E. rewrite (rd_type _ _ _ RD i L) in E. refine (td_range _ _ _ _ T _ r _ E). apply (on_row_cc s). now apply nth_KR.
  - rewrite (rd_vars _ _ _ RD). intros j l h L EL EU. destruct (rd_var _ _ _ RD j L) as (_ & VL & VU & _). rewrite VL in EL. rewrite VU in EU. set (k := nth j K 0%nat) in *.
    destruct (final_weaker k Lower l EL) as (a & A & HA). destruct (final_weaker k Upper h EU) as (b & B & HB).
    assert (X : feasible_value g u k <> None) by (apply D; apply (on_var_cv s); now apply nth_K). unfold feasible_value in X. rewrite A, B in X.
    destruct (qleb a b) eqn:Q; [|contradiction]. apply qleb_true in Q. cbn in HA, HB. qlra.
  - intros o name j E. assert (Lo : (o < n)%nat) by (rewrite <- (rd_no _ _ _ RD); apply nth_error_Some; congruence). rewrite (rd_vars _ _ _ RD), (rd_from _ _ _ RD).
    destruct (entry_cases g u g2 RD o Lo) as [(nm & r & _ & X)|(nm & j' & _ & X & Y)]; rewrite E in X; [discriminate|]. injection X as -> ->. exact Y.
  - intros o name p q E. exfalso. assert (Lo : (o < n)%nat) by (rewrite <- (rd_no _ _ _ RD); apply nth_error_Some; congruence).
    destruct (entry_cases g u g2 RD o Lo) as [(nm & r & _ & X)|(nm & j' & _ & X & Y)]; rewrite E in X; discriminate.
  - rewrite (rd_vars _ _ _ RD). intros j L _ _. destruct (rd_var _ _ _ RD j L) as (_ & _ & _ & _ & FL). split; [assumption|]. rewrite (rd_from _ _ _ RD).
    destruct (nth_K j L) as [Ln _]. destruct (rd_orig _ _ _ RD _ Ln) as (name & _ & _ & H). exists name. now apply H.
Qed.

(** *** Completing a point *)
Lemma completed_values x val : completed g2 x val -> (forall j, (j < length K)%nat -> x j = val (nth j K 0%nat)) /\ meets u val.
Proof.
  intros C. split.
  - intros j L. destruct (nth_K j L) as [Ln _]. destruct (rd_orig _ _ _ RD _ Ln) as (name & _ & _ & H). rewrite (C _ _ _ (H j L eq_refl)). cbn. unfold own_value.
    destruct (rd_var _ _ _ RD j L) as (_ & _ & _ & -> & ->). ring.
  - intros j r J. assert (Ln : (j < n)%nat) by (apply (in_map fst) in J; now apply (td_rem _ _ _ _ T) in J). destruct (rd_orig _ _ _ RD j Ln) as (name & _ & H & _).
    rewrite (C _ _ _ (H r J)). destruct r; reflexivity.
Qed.
Lemma completed_feasible x val : completed g2 x val -> gfeasible g2 x -> gfeasible g val /\ gcost g val = gcost g2 x.
Proof.
  intros C FX. destruct (completed_values x val C) as [E MT]. apply (left_feasible x val E) in FX. split.
  - apply (feas_whole g rows M RV). now apply (st_back _ _ _ _ S).
  - rewrite (left_cost x val E), <- vcost_whole. symmetry. now apply (st_meets _ _ _ _ S).
Qed.
Lemma left_better y : gfeasible g y -> gfeasible g2 (restrict y) /\ better (g_objective g) (gcost g2 (restrict y)) (gcost g y).
Proof.
  intros FY. apply (feas_whole g rows M RV) in FY. destruct (st_fwd _ _ _ _ S y FY) as [F1 B]. split.
  - now apply (left_feasible (restrict y) y).
  - rewrite (left_cost (restrict y) y) by reflexivity. now rewrite <- vcost_whole.
Qed.
Lemma left_optimal x val : goptimal g2 x -> completed g2 x val -> goptimal g val /\ gcost g val = gcost g2 x.
Proof.
  intros [FX OX] C. destruct (completed_feasible x val C FX) as [FV CV]. split; [|assumption]. split; [assumption|]. intros y FY.
  destruct (left_better y FY) as [FR B]. rewrite CV. specialize (OX _ FR). rewrite (rd_objective _ _ _ RD) in OX. eapply better_trans; eassumption.
Qed.
Lemma left_some x : gfeasible g2 x -> exists y, gfeasible g y /\ gcost g y = gcost g2 x.
Proof.
  intros FX. apply (left_feasible x (extend x) (extend_K x)) in FX. destruct (st_ext _ _ _ _ S _ FX) as (y & FY & E & _). exists y. split; [now apply (feas_whole g rows M RV)|].
  rewrite <- vcost_whole, E. symmetry. apply left_cost, extend_K.
Qed.
Lemma left_unbounded : gunbounded g2 -> gunbounded g.
Proof.
  intros [[x FX] U]. split; [destruct (left_some x FX) as (y & FY & _); now exists y|]. intros bound. destruct (U bound) as (z & FZ & B). destruct (left_some z FZ) as (y & FY & E).
  exists y. split; [assumption|]. rewrite E. now rewrite (rd_objective _ _ _ RD) in B.
Qed.
End Left.

(** ** The changes *)
Lemma start_ordered g rows : gives (index_new g rows) (orderly (nr_vars g)).
Proof.
  unfold index_new. eapply gives_bind with (Q := fun u => ordered (nr_vars g) (u_removed u)); [|intros u H; apply gives_go; exact H].
  unfold updates_new. eapply gives_bind with (Q := fun u => ordered (nr_vars g) (u_removed u)).
  - apply gives_fold; [constructor|]. intros u j H. unfold empty_column. apply gives_any. intros [v c]. apply gives_go. cbn. now constructor.
  - intros u H. apply gives_fold; [assumption|]. intros u' i H'. unfold empty_row. destruct (empty_feasible _ _); [|apply gives_stop]. apply gives_go. exact H'.
Qed.
Record changed (g : general) (rows : list svec) (s : pindex) : Prop := mk_changed {
  ch_matrix : matrix_ok g rows;
  ch_rows : forall i x, (i < g_rows g)%nat -> combination (nth i rows []) x = row_value g x i;
  ch_tidy : tidy g rows nobody s;
  ch_implied : implied g rows (view_of s);
  ch_domains : domains g s;
  ch_step : step g rows (whole g) (view_of s);
  ch_ordered : ordered (nr_vars g) (u_removed (i_u s)) }.
Definition ray (g : general) : Prop := forall x, gfeasible g x -> gunbounded g.
Definition right_verdict (g : general) (v : verdict) : Prop :=
  match v with VInfeasible => forall x, ~ gfeasible g x | VUnbounded => ray g | VOptimum _ => False end.
Lemma whole_verdict g rows v : matrix_ok g rows -> (forall i x, (i < g_rows g)%nat -> combination (nth i rows []) x = row_value g x i) ->
  verdict_holds g rows (whole g) v -> right_verdict g v.
Proof.
  intros M RV. destruct v as [| |s]; cbn; [| |auto].
  - intros H x F. apply (H x). now apply (feas_whole g rows M RV).
  - intros H x F. split; [now exists x|]. intros bound. apply (feas_whole g rows M RV) in F. destruct (H x F bound) as (y & FY & B). exists y.
    split; [now apply (feas_whole g rows M RV)|]. unfold beyond in B. now rewrite vcost_whole in B.
Qed.
Lemma changes_spec fuel g : general_ok g -> fresh g -> safe_run fuel g = true ->
  match presolve_changes fuel g with
  | Go u => exists rows s, u = i_u s /\ changed g rows s
  | Stop v => right_verdict g v
  | PPanic => False
  | PFuel => True
  end.
Proof.
  intros G F SR. destruct F as (F1 & F2 & F3 & F4). unfold presolve_changes, safe_run in *. destruct (matrix_from g G) as (rows & E & M & RV). rewrite E in *. cbn [lift pbind].
  pose proof (index_new_spec g rows G M) as P. pose proof (start_ordered g rows) as O. destruct (index_new g rows) as [s|v| |] eqn:EI; cbn [pbind pspec] in *.
  - destruct P as (T & S & I & NA). pose proof (supported_start g rows s NA) as SU. specialize (O s eq_refl). pose proof (presolve_loop_spec g rows M F4 fuel 0 [] s T I SU SR) as L. pose proof (ordered_loop g rows M F4 fuel 0 [] s T I SU O SR) as LO.
    destruct (presolve_loop g rows fuel 0 s) as [s'|v| |]; cbn [pbind]; try exact L.
    + destruct L as ((T' & S' & I') & D'). exists rows, s'. split; [reflexivity|]. constructor; try assumption.
      * eapply step_trans; eassumption.
      * now apply LO.
    + apply (whole_verdict g rows v M RV). exact (verdict_step g rows _ _ _ S L).
  - now apply (whole_verdict g rows v M RV).
  - exact P.
  - contradiction.
Qed.

(** ** Programs that differ in the table only *)
Lemma resolved_same fuel g2 g3 : resolves fuel g2 g3 -> (forall x, gfeasible g3 x <-> gfeasible g2 x) /\ (forall x, gcost g3 x = gcost g2 x).
Proof.
  intros R. assert (NV : nr_vars g3 = nr_vars g2) by (unfold nr_vars; now rewrite (rs_vars _ _ _ R)).
  assert (VR : forall j, var g3 j = var g2 j) by (intros j; unfold var; now rewrite (rs_vars _ _ _ R)).
  assert (CF : forall i j, coefficient g3 i j = coefficient g2 i j) by (intros i j; unfold coefficient; now rewrite (rs_cols _ _ _ R)).
  split; intros x.
  - unfold gfeasible, row_value, row_type. rewrite NV, (rs_rows _ _ _ R), (rs_types _ _ _ R), (rs_b _ _ _ R).
    split; intros [H1 H2]; split.
    + intros i L. specialize (H1 i L). erewrite sum_ext in H1 by (intros j _; now rewrite CF). exact H1.
    + intros j L. rewrite <- VR. now apply H2.
    + intros i L. erewrite sum_ext by (intros j _; now rewrite CF). now apply H1.
    + intros j L. rewrite VR. now apply H2.
  - unfold gcost. rewrite NV, (rs_fixed _ _ _ R). f_equal. apply sum_ext. intros j _. now rewrite VR.
Qed.
Lemma resolved_optimal fuel g2 g3 x : resolves fuel g2 g3 -> (goptimal g3 x <-> goptimal g2 x).
Proof.
  intros R. destruct (resolved_same fuel g2 g3 R) as [HF HC]. unfold goptimal. rewrite HF, (rs_objective _ _ _ R). split; intros [H1 H2]; (split; [assumption|]); intros y Y; specialize (H2 y); rewrite HF, !HC in *; auto.
Qed.
Lemma resolved_back fuel g2 g3 o name e' : resolves fuel g2 g3 -> nth_error (g_orig g3) o = Some (name, e') -> exists e, nth_error (g_orig g2) o = Some (name, e) /\ resolved_entry fuel g2 o e e'.
Proof.
  intros R E. destruct (nth_error (g_orig g2) o) as [[nm e]|] eqn:E2.
  - destruct (rs_orig _ _ _ R o nm e E2) as (e1 & N & H). rewrite E in N. injection N as <- <-. now exists e.
  - exfalso. apply nth_error_None in E2. rewrite <- (rs_no _ _ _ R) in E2. apply nth_error_None in E2. congruence.
Qed.
Lemma resolved_ok fuel g2 g3 : resolves fuel g2 g3 -> general_ok g2 -> general_ok g3.
Proof.
  intros R [P1 P2 P3 P4 P5 P6 P7 P8 P9 P10]. assert (NV : nr_vars g3 = nr_vars g2) by (unfold nr_vars; now rewrite (rs_vars _ _ _ R)).
  assert (VR : forall j, var g3 j = var g2 j) by (intros j; unfold var; now rewrite (rs_vars _ _ _ R)).
  constructor; unfold row_type; rewrite ?NV, ?(rs_cols _ _ _ R), ?(rs_rows _ _ _ R), ?(rs_from _ _ _ R), ?(rs_types _ _ _ R), ?(rs_b _ _ _ R); try assumption.
  - intros j l h L. rewrite VR. now apply P7.
  - intros o name j E. destruct (resolved_back _ _ _ o name _ R E) as (e & E2 & H). apply (P8 o name). rewrite E2. destruct e as [| |[|]]; cbn in H; try congruence. destruct H as ([v|] & _ & H); discriminate.
  - intros o name p q E. destruct (resolved_back _ _ _ o name _ R E) as (e & E2 & H). apply (P9 o name). rewrite E2. destruct e as [| |[|]]; cbn in H; try congruence. destruct H as ([v|] & _ & H); discriminate.
  - intros j L. rewrite VR. intros L1 L2. destruct (P10 j L L1 L2) as [H1 [name H2]]. split; [assumption|]. exists name. destruct (rs_orig _ _ _ R _ _ _ H2) as (e' & N & H). cbn in H. now subst e'.
Qed.

(** ** The whole of it *)
Fixpoint rank_in (l : list (nat * removed)) (o : nat) : nat :=
  match l with
  | [] => 0
  | (k, r) :: t => if Nat.eqb k o then match r with FunctionOf _ _ => S (length t) | Solved _ => 0 end else rank_in t o
  end.
Lemma rank_in_le l o : (rank_in l o <= length l)%nat.
Proof. induction l as [|[k r] l IH]; cbn; [lia|]. destruct (Nat.eqb k o); [destruct r; lia|lia]. Qed.
Lemma rank_in_ordered n l pre o c cs post k a : ordered n l -> NoDup (map fst l) -> l = pre ++ (o, FunctionOf c cs) :: post -> In (k, a) cs -> (rank_in l k < rank_in l o)%nat.
Proof.
  intros O ND E I. destruct (ordered_split n l O pre o c cs post E k a I) as (_ & D & P). assert (X : rank_in l o = S (length post) /\ (rank_in l k <= length post)%nat); [|lia].
  rewrite E in *. clear -ND P D. induction pre as [|[j r] pre IH]; cbn [app rank_in map fst] in *.
  - rewrite Nat.eqb_refl. split; [reflexivity|]. destruct (Nat.eqb_spec o k); [congruence|]. apply rank_in_le.
  - apply NoDup_cons_iff in ND. destruct ND as [NI ND]. destruct IH as [IH1 IH2]; [first [assumption|intros r' H; apply P; now right] ..|].
    split.
    + destruct (Nat.eqb_spec j o) as [->|]; [|assumption]. exfalso. apply NI. rewrite map_app. apply in_or_app. right. now left.
    + destruct (Nat.eqb_spec j k) as [->|]; [|assumption]. destruct (P r (or_introl eq_refl)) as [v ->]. lia.
Qed.
(** what presolving leaves behind *)
Record faithful (g g' : general) : Prop := mk_faithful {
  fa_ok : general_ok g';
  fa_objective : g_objective g' = g_objective g;
  fa_acyclic : StandardR.acyclic (g_orig g');
  fa_names : map fst (g_orig g') = map fst (g_orig g);
  fa_optimal : forall x val, goptimal g' x -> completed g' x val -> goptimal g val /\ gcost g val = gcost g' x;
  fa_feasible : forall x val, gfeasible g' x -> completed g' x val -> gfeasible g val /\ gcost g val = gcost g' x;
  fa_better : forall y, gfeasible g y -> exists x, gfeasible g' x /\ better (g_objective g) (gcost g' x) (gcost g y);
  fa_some : forall x, gfeasible g' x -> exists y, gfeasible g y /\ gcost g y = gcost g' x }.

Section Assembled.
Variables (fuel : nat) (g : general) (rows : list svec) (s : pindex) (g2 g3 : general).
Hypothesis G : general_ok g.
Hypothesis F : fresh g.
Hypothesis C : changed g rows s.
Hypothesis RD : reduces g (i_u s) g2.
Hypothesis RS : resolves fuel g2 g3.
Lemma names_kept : map fst (g_orig g3) = map fst (g_orig g).
Proof.
  destruct F as (F1 & _). apply nth_ext with ""%string ""%string.
  - now rewrite !map_length, (rs_no _ _ _ RS), (rd_no _ _ _ RD), F1.
  - intros o L. rewrite map_length, (rs_no _ _ _ RS), (rd_no _ _ _ RD) in L. destruct (rd_orig _ _ _ RD o L) as (name & E0 & H1 & H2).
    assert (X : exists e, nth_error (g_orig g2) o = Some (name, e)).
    { destruct (in_dec Nat.eq_dec o (map fst (u_removed (i_u s)))) as [I|N].
      - apply in_map_iff in I. destruct I as ([o' r] & Eo & I). cbn in Eo. subst o'. exists (Removed r). now apply H1.
      - assert (I : In o (vars_in g (i_u s))) by now apply vars_in_In. apply (In_nth _ _ 0%nat) in I. destruct I as (j & Lj & E). exists (Active j). now apply (H2 j). }
    destruct X as [e E2]. destruct (rs_orig _ _ _ RS o name e E2) as (e' & E3 & _).
    rewrite (nth_error_nth (map fst (g_orig g3)) o _ (map_nth_error fst _ _ E3)), (nth_error_nth (map fst (g_orig g)) o _ (map_nth_error fst _ _ E0)). reflexivity.
Qed.
Lemma left_acyclic : StandardR.acyclic (g_orig g3).
Proof.
  exists (rank_in (u_removed (i_u s))). intros o name c l j a E I. destruct (resolved_back _ _ _ o name _ RS E) as (e & E2 & H).
  assert (Lo : (o < nr_vars g)%nat) by (rewrite <- (rd_no _ _ _ RD); apply nth_error_Some; congruence).
  assert (X : e = Removed (FunctionOf c l)) by (destruct e as [| |[|]]; cbn in H; try congruence; destruct H as ([v|] & _ & H); congruence). subst e.
  assert (IR : In (o, FunctionOf c l) (u_removed (i_u s))).
  { destruct (entry_cases g (i_u s) g2 RD o Lo) as [(nm & r & Ir & X)|(nm & j' & _ & X & _)]; rewrite E2 in X; [|discriminate]. injection X as <- <-. exact Ir. }
  apply in_split in IR. destruct IR as (pre & post & S). split.
  - rewrite (rs_no _ _ _ RS), (rd_no _ _ _ RD). now destruct (ordered_split _ _ (ch_ordered _ _ _ C) pre o c l post S j a I).
  - apply (rank_in_ordered (nr_vars g) _ pre o c l post j a (ch_ordered _ _ _ C) (td_rem_nd _ _ _ _ (ch_tidy _ _ _ C)) S I).
Qed.
Lemma presolve_faithful : faithful g g3.
Proof.
  destruct C as [M RV T I D S O]. destruct (resolved_same fuel g2 g3 RS) as [HF HC]. constructor.
  - apply (resolved_ok fuel g2 g3 RS). now apply (left_ok g rows s g2 G F T D RD).
  - rewrite (rs_objective _ _ _ RS). apply (rd_objective _ _ _ RD).
  - apply left_acyclic.
  - apply names_kept.
  - intros x val OX CX. apply (resolved_optimal fuel g2 g3 x RS) in OX. rewrite HC. apply (resolved_completed fuel g2 g3 RS) in CX. now apply (left_optimal g rows s g2 M RV T I S RD).
  - intros x val FX CX. apply HF in FX. rewrite HC. apply (resolved_completed fuel g2 g3 RS) in CX. now apply (completed_feasible g rows s g2 M RV T I S RD).
  - intros y FY. exists (restrict g s y). rewrite HF, HC. now apply (left_better g rows s g2 M RV T I S RD).
  - intros x FX. rewrite HC. apply HF in FX. now apply (left_some g rows s g2 M RV T I S RD).
Qed.
End Assembled.
