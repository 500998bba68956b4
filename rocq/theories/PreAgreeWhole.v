(** * Presolving: the whole of it, in every run *)
From Verif Require Import SpecGeneral SparseP LinAlg KindP InitP PermP KeptP CarryP RangesP StandardQ StandardR.
From Verif Require Export PreAgreeEnd.
Local Open Scope Qc_scope.

(** ** Sorted lists of indices *)
Lemma increasing_sorted l : forall lo, increasing_from lo l -> sorted_by (fun x => x) l = true.
Proof.
  induction l as [|x l IH]; intros lo H; [reflexivity|]. destruct H as [H1 H2]. destruct l as [|y l]; [reflexivity|]. change (Nat.leb x y && sorted_by (fun x => x) (y :: l) = true). rewrite (IH _ H2), andb_true_r.
  apply Nat.leb_le. destruct H2 as [H2 _]. lia.
Qed.
Lemma distinct_nd l : NoDup l -> distinct l = true.
Proof.
  induction 1 as [|x l H N IH]; [reflexivity|]. cbn [distinct]. rewrite IH, andb_true_r. apply negb_true_iff. now apply memb_false.
Qed.
Lemma removable_ok l size : NoDup l -> (forall i, In i l -> (i < size)%nat) -> removable (sort_by (fun x => x) l) size = true.
Proof.
  intros N L. unfold removable. pose proof (sort_nd l N) as S. pose proof (increasing_nd _ _ S) as N'.
  assert (L' : forall i, In i (sort_by (fun x => x) l) -> (i < size)%nat) by (intros i H; apply L; now apply sort_by_In in H).
  rewrite (increasing_sorted _ 0 S), (distinct_nd _ N'). rewrite !andb_true_r. apply andb_true_iff. split.
  - apply Nat.leb_le. rewrite <- (seq_length size 0). apply NoDup_incl_length; [assumption|]. intros i H. apply in_seq. specialize (L' i H). lia.
  - apply forallb_forall. intros i H. apply Nat.ltb_lt. now apply L'.
Qed.
Lemma column_sorted m l : forall lo, fwf lo m l -> sorted_by fst l = true /\ forallb (fun e => Nat.ltb (fst e) m) l = true.
Proof.
  induction l as [|[i v] l IH]; intros lo H; [now split|]. destruct H as (H1 & H2 & H3). destruct (IH _ H3) as [I1 I2]. split.
  - destruct l as [|[k w] l]; [reflexivity|]. change (Nat.leb i k && sorted_by fst ((k, w) :: l) = true). rewrite I1, andb_true_r. apply Nat.leb_le. destruct H3 as (H3 & _). lia.
  - cbn [forallb fst]. rewrite I2, andb_true_r. apply Nat.ltb_lt. lia.
Qed.
Lemma transposed_fine g : general_ok g -> transposed_ok g = true.
Proof.
  intros G. unfold transposed_ok. apply andb_true_iff. split; apply forallb_forall; intros c H; apply (In_nth _ _ []) in H; destruct H as (j & L & E); rewrite (gok_cols _ G) in L;
    pose proof (gok_sorted _ G j L) as W; rewrite E in W; now apply column_sorted in W.
Qed.
Lemma flat_sorted {A} (f : A -> list nat) (l : list A) : (forall a, (length (f a) <= 1)%nat) ->
  (forall i j a b x y, (i < j)%nat -> nth_error l i = Some a -> nth_error l j = Some b -> In x (f a) -> In y (f b) -> (x <= y)%nat) -> sorted_by (fun x => x) (flat_map f l) = true.
Proof.
  intros L1. induction l as [|a l IH]; intros H; [reflexivity|]. cbn [flat_map].
  assert (IHl : sorted_by (fun x => x) (flat_map f l) = true).
  { apply IH. intros i j b c x y L Ei Ej. apply (H (S i) (S j) b c x y); [lia|assumption|assumption]. }
  specialize (L1 a). destruct (f a) as [|x [|y t]] eqn:E; cbn [length] in L1; [exact IHl| |lia]. cbn [app]. destruct (flat_map f l) as [|y t] eqn:FL; [reflexivity|].
  change (Nat.leb x y && sorted_by (fun x => x) (y :: t) = true). rewrite IHl, andb_true_r. apply Nat.leb_le. assert (Iy : In y (flat_map f l)) by (rewrite FL; now left). apply in_flat_map in Iy. destruct Iy as (b & Ib & Iy).
  apply In_nth_error in Ib. destruct Ib as [k Ek]. apply (H 0%nat (S k) a b x y); [lia|reflexivity|exact Ek|rewrite E; now left|exact Iy].
Qed.

(** ** What is left of the program *)
Section Left.
Variables (g : general) (u : updates) (g2 : general).
Local Notation n := (nr_vars g).
Hypothesis G : general_ok g.
Hypothesis F : fresh g.
Hypothesis rem_nd : NoDup (map fst (u_removed u)).
Hypothesis rem_lt : forall j, In j (map fst (u_removed u)) -> (j < n)%nat.
Hypothesis RD : reduces g u g2.
Lemma kept_from : forall l vs lo, increasing_from lo l -> increasing_from lo (filter (fun i => negb (memb i vs)) l).
Proof using.
  assert (W : forall l a b, (b <= a)%nat -> increasing_from a l -> increasing_from b l) by (intros [|x l] a b L H; [exact Logic.I|destruct H as [H1 H2]; split; [lia|exact H2]]).
  induction l as [|x l IH]; intros vs lo H; [exact Logic.I|]. destruct H as [H1 H2]. cbn [filter]. destruct (negb (memb x vs)).
  - split; [assumption|]. now apply IH.
  - apply IH. apply (W l (S x)); [lia|assumption].
Qed.
Lemma seq_increasing : forall k lo, increasing_from lo (seq lo k).
Proof using. induction k as [|k IH]; intros lo; [exact Logic.I|]. split; [lia|]. apply IH. Qed.
Lemma vars_in_increasing : increasing_from 0 (vars_in g u).
Proof using. unfold vars_in, CarryP.kept. apply kept_from. apply seq_increasing. Qed.
Lemma no_free : filter PresolveD.is_free (g_orig g2) = [].
Proof using RD.
  assert (X : forall e, In e (g_orig g2) -> PresolveD.is_free e = false).
  { intros e H. apply In_nth_error in H. destruct H as [o E]. assert (L : (o < n)%nat) by (rewrite <- (rd_no _ _ _ RD); apply nth_error_Some; congruence).
    destruct (entry_cases g u g2 RD o L) as [(nm & r & _ & X)|(nm & j & _ & X & _)]; rewrite E in X; injection X as ->; reflexivity. }
  induction (g_orig g2) as [|e l IH]; [reflexivity|]. cbn [filter]. rewrite (X e) by now left. apply IH. intros e' H. apply X. now right.
Qed.
Lemma kept_sorted : sorted_by (fun x => x) (flat_map kept_index (g_orig g2)) = true.
Proof using RD.
  apply flat_sorted.
  - intros [nm [k|k k'|r]]; cbn; lia.
  - intros i j a b x y L Ei Ej Hx Hy.
    assert (Lj : (j < n)%nat) by (rewrite <- (rd_no _ _ _ RD); apply nth_error_Some; congruence).
    destruct (entry_cases g u g2 RD i ltac:(lia)) as [(nm & r & _ & X)|(nm & k & _ & X & K1 & K2)]; rewrite Ei in X; injection X as ->; cbn in Hx; [contradiction|].
    destruct (entry_cases g u g2 RD j Lj) as [(nm' & r & _ & X)|(nm' & k' & _ & X & K1' & K2')]; rewrite Ej in X; injection X as ->; cbn in Hy; [contradiction|].
    destruct Hx as [<-|[]], Hy as [<-|[]]. destruct (Nat.le_gt_cases k k') as [|GT]; [assumption|]. exfalso.
    pose proof (increasing_lt 0 _ vars_in_increasing k' k ltac:(lia)). lia.
Qed.
Lemma left_consistent : is_consistent g2 = true.
Proof using G rem_nd rem_lt RD.
  assert (LK : length (vars_in g u) = (n - length (vars_out u))%nat) by (unfold vars_in; apply kept_length; now apply vars_out_sorted).
  unfold is_consistent. cbv zeta. rewrite no_free. cbn [length]. rewrite (rd_nc _ _ _ RD), (rd_no _ _ _ RD), (rd_from _ _ _ RD), (rd_nb _ _ _ RD), (rd_nt _ _ _ RD), (rd_rows _ _ _ RD).
  pose proof (rd_vars _ _ _ RD) as NV. unfold nr_vars in NV at 1. rewrite NV, !Nat.eqb_refl, kept_sorted, Nat.sub_0_r, firstn_all, skipn_all, (increasing_sorted _ 0 vars_in_increasing). cbn [Nat.leb andb sorted_by].
  apply andb_true_iff. split; [rewrite !andb_true_r; apply Nat.leb_le; lia|].
  destruct (vars_in g u) as [|x l] eqn:E; [reflexivity|]. apply orb_true_iff. right. apply Nat.ltb_lt. rewrite <- E.
  assert (I : In (nth (length (vars_in g u) - 1) (vars_in g u) 0%nat) (vars_in g u)) by (apply nth_In; rewrite E; cbn; lia). apply vars_in_In in I. apply I.
Qed.
End Left.
Lemma remain_shape g u g1 : values_that_remain g u = Ok g1 -> g_rows g1 = g_rows g /\ g_cols g1 = g_cols g /\ length (g_b g1) = length (g_b g).
Proof.
  unfold values_that_remain. destruct (foldM set_removed (sort_by fst (u_removed u)) (g_orig g)) as [orig| |]; cbn [bind]; try discriminate. intros E. injection E as <-. cbn.
  split; [reflexivity|]. split; [reflexivity|]. now rewrite map_length, StandardQ.number_from_length.
Qed.

(** ** Every run *)
(** presolving panics in a release build only in a run that gets here: a range constraint whose right-hand side
    is the smallest value that the bounds let its left-hand side take *)
Definition gets_stuck (g : general) : Prop := exists rows s s', transpose_from 0 (g_cols g) (repeat [] (g_rows g)) = Ok rows /\
  index_new g rows = Go s /\ leads g rows s s' /\ stuck g rows s'.
(** a well-formed program with the same variables *)
Record wellformed (g g' : general) : Prop := mk_wellformed {
  wl_ok : general_ok g';
  wl_objective : g_objective g' = g_objective g;
  wl_acyclic : StandardR.acyclic (g_orig g');
  wl_names : map fst (g_orig g') = map fst (g_orig g) }.
Section Whole.
Variable on : site -> bool.
Variables (g : general).
Local Notation n := (nr_vars g).
Local Notation m := (g_rows g).
Hypothesis off : on SlackFixed = false.
Hypothesis G : general_ok g.
Hypothesis F : fresh g.

Section Rows.
Variable rows : list svec.
Hypothesis M : matrix_ok g rows.
Definition sturdy (s : pindex) : Prop := calm g rows s /\ orderly n s /\ tight g (i_u s).
Lemma ordered_step' s : calm g rows s -> orderly n s -> gives (presolve_step g rows s) (fun r => orderly n (fst r)).
Proof using F.
  intros (T & _ & _) O. destruct F as (F1 & F2 & F3 & F4). unfold presolve_step.
  set (sub := match q_sub (i_q s) with [] => _ | _ => _ end). destruct (fst sub) as [j|].
  - eapply gives_bind; [apply grows_fixed_variable, grows_refl|]. intros s2 H2. apply gives_go. eapply grows_orderly; [|exact H2]. exact O.
  - destruct (fst (drain _ (q_bound _))) as [i|].
    + eapply gives_bind; [apply grows_bound_constraint, grows_refl|]. intros s2 H2. apply gives_go. eapply grows_orderly; [|exact H2]. exact O.
    + destruct (fst (drain _ (q_slack _))) as [j|].
      * eapply gives_bind; [apply (ordered_slack g rows F4)|].
        -- intros k K. split; [now apply (bk_cv _ _ _ _ _ T)|]. intros X. apply (bk_rem _ _ _ _ T) in X. now apply K.
        -- exact O.
        -- intros s2 H2. now apply gives_go.
      * destruct (fst (drain _ (q_act _))) as [[i d]|].
        -- eapply gives_impl; [apply grows_propagation, grows_refl|]. intros r H. eapply grows_orderly; [|exact H]. exact O.
        -- apply gives_go. exact O.
Qed.
Lemma sturdy_step s : sturdy s -> gives (presolve_step g rows s) (fun r => sturdy (fst r)).
Proof using M off F.
  intros (C & O & T) r E. pose proof (presolve_step_agree on g rows M off s C) as [_ P]. rewrite E in P. cbn [pspec] in P. split; [assumption|]. split.
  - exact (ordered_step' s C O r E).
  - destruct C as (B & _). exact (proj2 (snug_step g rows s (conj (bk_apart _ _ _ _ B) T) r E)).
Qed.
Lemma sturdy_loop : forall fuel stale s, sturdy s -> gives (presolve_loop g rows fuel stale s) sturdy.
Proof using M off F.
  induction fuel as [|fuel IH]; intros stale s S; cbn [presolve_loop]; (destruct (queues_empty (i_q s)); [now apply gives_go|]); apply gives_any; intros r;
    (destruct (Nat.leb r stale); [now apply gives_go|]); [discriminate|].
  eapply gives_bind; [now apply sturdy_step|]. intros [s' ch] S'. cbn [fst snd] in *. destruct ch; now apply IH.
Qed.
Lemma sturdy_start : gives (index_new g rows) sturdy.
Proof using M on G.
  intros s E. destruct (index_new_calm on g rows M G) as [_ P]. rewrite E in P. cbn [pspec] in P. split; [assumption|]. split; [now apply (start_ordered g rows)|].
  destruct (index_new_bounds g rows s E) as [B A]. intros j d a v. unfold bound_of, pbound. rewrite A, B. cbn. intros E1 E2. rewrite E1 in E2. injection E2 as <-. apply bound_holds_refl.
Qed.
Section Result.
Variables (s : pindex) (g2 : general).
Hypothesis S : sturdy s.
Hypothesis RD : reduces g (i_u s) g2.
Local Notation u := (i_u s).
Lemma rem_in j : In j (map fst (u_removed u)) -> (j < n)%nat.
Proof using S. destruct S as ((B & _) & _). intros H. now apply (bk_rem _ _ _ _ B) in H. Qed.
Lemma gone_in i : In i (u_gone u) -> (i < m)%nat.
Proof using S. destruct S as ((B & _) & _). intros H. now apply (bk_gone _ _ _ _ B) in H. Qed.
Lemma final_weaker' j d v : final_bound g u j d = Some v -> exists a, bound_of g u j d = Some a /\ bound_holds d v a.
Proof using S.
  destruct S as (_ & _ & T). intros E. destruct (final_cases g s j d) as [C|[C1 C2]].
  - rewrite C in E. destruct (bound_of g u j d) as [a|] eqn:B.
    + exists a. split; [reflexivity|]. exact (T j d a v B E).
    + exfalso. rewrite bound_of_cases, E in B. destruct (u_acts u j d); discriminate.
  - rewrite C2 in E. exists v. unfold bound_of. rewrite E. split; [reflexivity|]. apply bound_holds_refl.
Qed.
Lemma remains_ok : general_ok g2.
Proof using S RD G.
  pose proof S as ((B & O & R) & _ & _). constructor.
  - rewrite (rd_nc _ _ _ RD). symmetry. apply (rd_vars _ _ _ RD).
  - rewrite (rd_from _ _ _ RD). symmetry. apply (rd_vars _ _ _ RD).
  - rewrite (rd_nt _ _ _ RD). symmetry. apply (rd_rows _ _ _ RD).
  - rewrite (rd_nb _ _ _ RD). symmetry. apply (rd_rows _ _ _ RD).
  - rewrite (rd_vars _ _ _ RD), (rd_rows _ _ _ RD). intros j L. rewrite (rd_col _ _ _ RD j L). apply wfs_sremove; [apply (increasing_nd 0), rows_out_inc, (bk_gone_nd _ _ _ _ B)|].
    apply (gok_sorted _ G). assert (I : In (nth j (vars_in g u) 0%nat) (vars_in g u)) by now apply nth_In. now apply vars_in_In in I.
  - rewrite (rd_rows _ _ _ RD). intros i r L E. rewrite (rd_type _ _ _ RD i L) in E. refine (R _ r _ E).
    assert (I : In (nth i (rows_in g u) 0%nat) (rows_in g u)) by now apply nth_In. apply rows_in_In in I. destruct I as [I1 I2]. intros Z. apply I2. apply (bk_gone _ _ _ _ B). now split.
  - rewrite (rd_vars _ _ _ RD). intros j l h L EL EU. destruct (rd_var _ _ _ RD j L) as (_ & VL & VU & _). rewrite VL in EL. rewrite VU in EU. set (k := nth j (vars_in g u) 0%nat) in *.
    destruct (final_weaker' k Lower l EL) as (a & A & HA). destruct (final_weaker' k Upper h EU) as (b & Bb & HB). specialize (O k a b A Bb). cbn in HA, HB. qlra.
  - intros o name j E. assert (Lo : (o < n)%nat) by (rewrite <- (rd_no _ _ _ RD); apply nth_error_Some; congruence). rewrite (rd_vars _ _ _ RD), (rd_from _ _ _ RD).
    destruct (entry_cases g u g2 RD o Lo) as [(nm & r & _ & X)|(nm & j' & _ & X & Y)]; rewrite E in X; [discriminate|]. injection X as -> ->. exact Y.
  - intros o name p q E. exfalso. assert (Lo : (o < n)%nat) by (rewrite <- (rd_no _ _ _ RD); apply nth_error_Some; congruence).
    destruct (entry_cases g u g2 RD o Lo) as [(nm & r & _ & X)|(nm & j' & _ & X & Y)]; rewrite E in X; discriminate.
  - rewrite (rd_vars _ _ _ RD). intros j L _ _. destruct (rd_var _ _ _ RD j L) as (_ & _ & _ & _ & FL). split; [assumption|]. rewrite (rd_from _ _ _ RD).
    assert (I : In (nth j (vars_in g u) 0%nat) (vars_in g u)) by now apply nth_In. apply vars_in_In in I. destruct I as [Ln _].
    destruct (rd_orig _ _ _ RD _ Ln) as (name & _ & _ & H). exists name. now apply H.
Qed.
Variables (fuel : nat) (g3 : general).
Hypothesis RS : resolves fuel g2 g3.
Lemma remains_acyclic : StandardR.acyclic (g_orig g3).
Proof using S RD RS.
  pose proof S as ((B & _ & _) & O & _).
  exists (rank_in (u_removed (i_u s))). intros o name c l j a E I. destruct (resolved_back _ _ _ o name _ RS E) as (e & E2 & H).
  assert (Lo : (o < nr_vars g)%nat) by (rewrite <- (rd_no _ _ _ RD); apply nth_error_Some; congruence).
  assert (X : e = Removed (FunctionOf c l)) by (destruct e as [| |[|]]; cbn in H; try congruence; destruct H as ([v|] & _ & H); congruence). subst e.
  assert (IR : In (o, FunctionOf c l) (u_removed (i_u s))).
  { destruct (entry_cases g (i_u s) g2 RD o Lo) as [(nm & r & Ir & X)|(nm & j' & _ & X & _)]; rewrite E2 in X; [|discriminate]. injection X as <- <-. exact Ir. }
  apply in_split in IR. destruct IR as (pre & post & SP). split.
  - rewrite (rs_no _ _ _ RS), (rd_no _ _ _ RD). now destruct (ordered_split _ _ O pre o c l post SP j a I).
  - apply (rank_in_ordered (nr_vars g) _ pre o c l post j a O (bk_rem_nd _ _ _ _ B) SP I).
Qed.
Lemma remains_wellformed : wellformed g g3.
Proof using S RD RS G F.
  constructor.
  - apply (resolved_ok fuel g2 g3 RS). apply remains_ok.
  - rewrite (rs_objective _ _ _ RS). apply (rd_objective _ _ _ RD).
  - apply remains_acyclic.
  - apply (names_kept fuel g s g2 g3 F RD RS).
Qed.
End Result.
End Rows.

Definition any_outcome (r : pr general) : Prop :=
  match r with
  | Go g' => wellformed g g'
  | Stop _ => True
  | PPanic => gets_stuck g
  | PFuel => True
  end.
Lemma presolve_agree fuel : presolve_d on fuel g = presolve fuel g /\ any_outcome (presolve fuel g).
Proof using off G F.
  unfold presolve_d, presolve, presolve_changes_d, presolve_changes. rewrite assert_ok by now apply transposed_fine. destruct (matrix_from g G) as (rows & E & M & RV). rewrite E. cbn [lift pbind].
  destruct (index_new_calm on g rows M G) as [EI PI]. rewrite EI. pose proof (sturdy_start rows M) as ST. destruct (index_new g rows) as [s0|v| |] eqn:IN; cbn [pbind pspec] in *; try contradiction.
  2:{ now split. }
  specialize (ST s0 eq_refl). destruct (presolve_loop_agree on g rows M off fuel 0 s0 PI) as [EL PL]. rewrite EL. pose proof (sturdy_loop rows M fuel 0 s0 ST) as SL.
  destruct (presolve_loop g rows fuel 0 s0) as [s|v| |] eqn:LO; cbn [pbind].
  - specialize (SL s eq_refl). pose proof SL as ((B & _) & O & _).
    destruct (reduced_spec g (i_u s) G F (bk_rem_nd _ _ _ _ B) (rem_in rows s SL) (bk_gone_nd _ _ _ _ B) (gone_in rows s SL)) as (g1 & g2 & E1 & E2 & RD).
    rewrite E1. cbn [lift pbind]. destruct (remain_shape g (i_u s) g1 E1) as (S1 & S2 & S3).
    assert (E2d : remove_rows_and_columns_d on g1 (u_gone (i_u s)) (map fst (u_removed (i_u s))) = Go g2).
    { unfold remove_rows_and_columns_d. cbv zeta. rewrite E2, S1, S2, S3, (gok_cols _ G), (gok_b _ G). cbn [lift pbind].
      rewrite !assert_ok; first [reflexivity|apply (left_consistent g (i_u s)); try assumption; [apply (bk_rem_nd _ _ _ _ B)|apply (rem_in rows s SL)]|
        apply removable_ok; [apply (bk_rem_nd _ _ _ _ B)|apply (rem_in rows s SL)]|apply removable_ok; [apply (bk_gone_nd _ _ _ _ B)|apply (gone_in rows s SL)]]. }
    rewrite E2d, E2. cbn [lift pbind]. rewrite assert_ok by (apply (left_consistent g (i_u s)); try assumption; [apply (bk_rem_nd _ _ _ _ B)|apply (rem_in rows s SL)]).
    split; [reflexivity|]. pose proof (resolve_no_panic g (i_u s) g2 RD O fuel) as NP. destruct (solution_where_possible fuel g2) as [g3| |] eqn:E3; cbn [lift pbind]; [|congruence|exact Logic.I].
    pose proof (remains_wellformed rows s g2 SL RD fuel g3 (resolve_spec fuel g2 g3 E3)) as W.
    destruct (get_solution g3); [exact Logic.I|exact W].
  - now split.
  - split; [reflexivity|]. destruct PL as (s' & L & K). exists rows, s0, s'. now repeat split.
  - now split.
Qed.
End Whole.
