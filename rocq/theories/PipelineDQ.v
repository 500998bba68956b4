(** * Builds with debug assertions: new programs, and what presolving leaves (proofs about PipelineD.v) *)
From Verif Require Import SpecGeneral SparseP LinAlg KindP InitP PermP KeptP CarryP SearchP StandardP StandardQ StandardR RangesP PipelineP PreTerm MatrixDataP DebugLuP.
From Verif Require Export SpecSizes PipelineD PipelineDP PreAny.
Local Open Scope Qc_scope.

(** ** New programs *)
Lemma seq_from l : forall n, length l = n -> (forall j, (j < n)%nat -> nth j l 0%nat = j) -> l = seq 0 n.
Proof.
  intros n L H. apply (nth_ext _ _ 0%nat 0%nat); [now rewrite seq_length|]. intros i Li. rewrite H by lia. rewrite seq_nth by lia. reflexivity.
Qed.
Lemma seq_sorted n : forall a, sorted_by (fun x => x) (seq a n) = true.
Proof. induction n as [|[|n] IH]; intros a; [reflexivity|reflexivity|]. change (Nat.leb a (S a) && sorted_by (fun x => x) (seq (S a) (S n)) = true). rewrite IH, andb_true_r. apply Nat.leb_le. lia. Qed.
Lemma fresh_unsplit g : fresh g -> unsplit g.
Proof.
  intros (L & A & _) o name p q E. assert (Lo : (o < nr_vars g)%nat) by (rewrite <- L; apply nth_error_Some; congruence).
  destruct (A o Lo) as [nm X]. congruence.
Qed.
Lemma fresh_kept l : forall a, (forall j, (j < length l)%nat -> exists name, nth_error l j = Some (name, Active (a + j))) -> flat_map kept_index l = seq a (length l).
Proof.
  induction l as [|[nm e] l IH]; intros a H; [reflexivity|]. cbn [flat_map length seq]. destruct (H 0%nat ltac:(cbn; lia)) as [nm' X]. cbn in X. injection X as -> ->. rewrite Nat.add_0_r.
  cbn [kept_index snd app]. f_equal. apply IH. intros j Lj. destruct (H (S j) ltac:(cbn; lia)) as [nm2 X]. cbn [nth_error] in X. exists nm2. rewrite X. do 3 f_equal. lia.
Qed.
Lemma books_consistent g : length (g_cols g) = nr_vars g -> length (g_b g) = g_rows g -> length (g_types g) = g_rows g -> length (g_from g) = nr_vars g ->
  length (g_orig g) = nr_vars g -> (forall j, (j < nr_vars g)%nat -> exists name, nth_error (g_orig g) j = Some (name, Active j)) -> (forall j, (j < nr_vars g)%nat -> nth j (g_from g) 0%nat = j) ->
  is_consistent g = true.
Proof.
  intros HC HB HT HF L A FR.
  assert (U : unsplit g). { intros o name p q E. assert (Lo : (o < nr_vars g)%nat) by (rewrite <- L; apply nth_error_Some; congruence). destruct (A o Lo) as [nm X]. congruence. }
  assert (EF : g_from g = seq 0 (nr_vars g)) by (apply seq_from; assumption).
  unfold is_consistent. cbv zeta. change (length (g_vars g)) with (nr_vars g).
  rewrite (unsplit_free g U), HC, HB, HT, L, !Nat.eqb_refl, Nat.sub_0_r, Nat.leb_refl.
  rewrite (fresh_kept (g_orig g) 0); [|intros j Lj; rewrite L in Lj; exact (A j Lj)]. rewrite EF, seq_length, seq_sorted, Nat.eqb_refl. cbn [andb Nat.leb].
  rewrite firstn_all2 by (rewrite seq_length; lia). rewrite seq_sorted. rewrite skipn_all2 by (rewrite seq_length; lia). cbn [sorted_by andb].
  destruct (Nat.eqb_spec (nr_vars g) 0) as [Z|Z]; [reflexivity|]. cbn [orb]. rewrite seq_nth by lia. apply Nat.ltb_lt. lia.
Qed.
Lemma fresh_consistent g : general_ok g -> fresh g -> is_consistent g = true.
Proof. intros P (L & A & _ & FR). apply books_consistent; try assumption; apply P. Qed.
Lemma new_consistent o rows cols types b vars names fixed : length types = rows -> length b = rows -> length vars = length cols -> length names = length cols ->
  is_consistent (new_general o rows cols types b vars names fixed) = true.
Proof.
  intros LT LB LV LN. apply books_consistent; unfold nr_vars; cbn [new_general g_cols g_b g_rows g_types g_from g_orig g_vars]; try assumption.
  - now symmetry.
  - unfold range. rewrite seq_length. lia.
  - rewrite map_length, number_from_length. congruence.
  - intros j Lj. rewrite nth_error_map.
    assert (G : forall l s k, nth_error (number_from s l) k = option_map (fun x : string => ((s + k)%nat, x)) (nth_error l k)).
    { induction l as [|x l IH]; intros s [|k]; cbn; try reflexivity; [now rewrite Nat.add_0_r|]. rewrite IH. now replace (S s + k)%nat with (s + S k)%nat by lia. }
    rewrite G. destruct (nth_error names j) as [x|] eqn:E; [now exists x|]. apply nth_error_None in E. lia.
  - intros j Lj. unfold range. rewrite Nat.sub_0_r. now rewrite seq_nth by exact Lj.
Qed.
Lemma solve_fresh_debug r n fuel g : general_ok g -> fresh g -> (1 <= nr_vars g)%nat -> enough r g ->
  solve_general_debug r n fuel g = solve_general r n fuel g.
Proof.
  intros P F L E. apply solve_debug; try assumption; [now apply fresh_consistent|now apply fresh_unsplit|now apply fresh_acyclic].
Qed.
Lemma new_general_debug o rows cols types b vars names fixed :
  let g := new_general o rows cols types b vars names fixed in general_ok g -> fresh g ->
  new_general_d o rows cols types b vars names fixed = Ok g.
Proof. intros g P F. unfold new_general_d. fold g. now rewrite asserted by now apply fresh_consistent. Qed.

(** ** What presolving leaves *)
Lemma resolve_books fuel g2 g3 : solution_where_possible fuel g2 = Ok g3 ->
  g_rows g3 = g_rows g2 /\ g_cols g3 = g_cols g2 /\ g_types g3 = g_types g2 /\ g_b g3 = g_b g2 /\ g_vars g3 = g_vars g2 /\ g_from g3 = g_from g2 /\
  length (g_orig g3) = length (g_orig g2) /\ flat_map kept_index (g_orig g3) = flat_map kept_index (g_orig g2) /\
  filter PresolveD.is_free (g_orig g3) = filter PresolveD.is_free (g_orig g2).
Proof.
  unfold solution_where_possible. destruct (mapM _ _) as [orig| |] eqn:E; cbn [bind]; try discriminate. intros [= <-].
  cbn [g_rows g_cols g_types g_b g_vars g_from g_orig]. do 6 (split; [reflexivity|]). revert E. generalize 0%nat as k. generalize (g_orig g2) at 1 as all. intros all k. revert k orig.
  induction (g_orig g2) as [|[nm e] l IH]; intros k orig; cbn [number_from mapM]; [intros [= <-]; auto|].
  intros E. destruct (match e with Active _ => _ | ActiveFree _ _ => _ | Removed _ => _ end) as [x| |] eqn:E1; cbn [bind] in E; try discriminate.
  destruct (mapM _ (number_from (S k) l)) as [r| |] eqn:E2; cbn [bind] in E; try discriminate. injection E as <-.
  destruct (IH _ _ E2) as (H1 & H2 & H3).
  assert (X : kept_index x = kept_index (nm, e) /\ (PresolveD.is_free x = false \/ x = (nm, e)) /\ PresolveD.is_free x = PresolveD.is_free (nm, e)).
  { destruct e as [j|p q|[v|c coefs]]; try (injection E1 as <-; auto). destruct (value_if_known fuel all k) as [[v|]| |]; cbn [bind] in E1; try discriminate; injection E1 as <-; auto. }
  destruct X as (X1 & X2 & X3). cbn [length flat_map filter]. rewrite H1, H2, H3, X1, X3. split; [reflexivity|]. split; [reflexivity|].
  destruct (PresolveD.is_free (nm, e)) eqn:Y; [|reflexivity]. destruct X2 as [X2|X2]; [congruence|]. now rewrite X2.
Qed.
Lemma known_all orig : (forall o name e, nth_error orig o = Some (name, e) -> exists r, e = Removed r) ->
  forall fuel o v, value_if_known fuel orig o = Ok v -> v <> None.
Proof.
  intros A. induction fuel as [|fuel IH]; intros o v; cbn [value_if_known]; [discriminate|].
  destruct (index orig o) as [[nm e]| |] eqn:E; cbn [bind snd]; try discriminate. apply index_ok in E. destruct (A _ _ _ E) as [[w|c l] ->]; [now intros [= <-]|].
  match goal with |- context [foldM ?f l (Some 0)] => set (step := f) end.
  assert (H : forall l s r, foldM step l (Some s) = Ok r -> r <> None).
  { clear l E. induction l as [|[j a] l IHl]; intros s r; cbn [foldM]; [now intros [= <-]|]. unfold step at 1.
    destruct (value_if_known fuel orig j) as [w| |] eqn:Ew; cbn [bind]; try discriminate. pose proof (IH _ _ Ew) as Nw. destruct w as [w|]; [|congruence]. apply IHl. }
  destruct (foldM step l (Some 0)) as [parts| |] eqn:Ep; cbn [bind]; try discriminate. pose proof (H _ _ _ Ep) as Np. destruct parts; [now intros [= <-]|congruence].
Qed.
Lemma all_known fuel g2 g3 : (forall o name e, nth_error (g_orig g2) o = Some (name, e) -> exists r, e = Removed r) ->
  solution_where_possible fuel g2 = Ok g3 -> get_solution g3 <> None.
Proof.
  intros A. unfold solution_where_possible. destruct (mapM _ _) as [orig| |] eqn:E; cbn [bind]; try discriminate. intros [= <-]. unfold get_solution. cbn [g_orig g_fixed].
  assert (N : all_solved orig <> None); [|destruct (all_solved orig); [discriminate|congruence]].
  assert (A' := A). revert A' orig E. generalize 0%nat as k. generalize (g_orig g2) at 1 3 as l.
  induction l as [|[nm e] l IH]; intros k A' orig; cbn [number_from mapM]; [now intros [= <-]|].
  intros E. destruct (match e with Active _ => _ | ActiveFree _ _ => _ | Removed _ => _ end) as [x| |] eqn:E1; cbn [bind] in E; try discriminate.
  destruct (mapM _ (number_from (S k) l)) as [r| |] eqn:E2; cbn [bind] in E; try discriminate. injection E as <-.
  assert (NR : all_solved r <> None) by (apply (IH (S k)); [intros o nm' e' H; exact (A' (S o) nm' e' H)|assumption]).
  destruct (A' 0%nat nm e eq_refl) as [[v|c coefs] ->].
  - injection E1 as <-. cbn [all_solved]. now destruct (all_solved r).
  - destruct (value_if_known fuel (g_orig g2) k) as [v| |] eqn:Ev; cbn [bind] in E1; try discriminate. pose proof (known_all _ A _ _ _ Ev) as Nv.
    destruct v as [v|]; [|congruence]. injection E1 as <-. cbn [all_solved]. now destruct (all_solved r).
Qed.
Lemma any_books fuel g g' : general_ok g -> fresh g -> presolve fuel g = Go g' -> is_consistent g' = true /\ unsplit g' /\ (1 <= nr_vars g')%nat.
Proof.
  intros G F E. unfold presolve in E. destruct (presolve_changes fuel g) as [u|v| |] eqn:EU; cbn [pbind] in E; try discriminate.
  destruct (changes_any fuel g u G F EU) as (rows & s & M & S & ->). pose proof S as ((B & _) & O & _).
  destruct (reduced_spec g (i_u s) G F (bk_rem_nd _ _ _ _ B) (rem_in g rows s S) (bk_gone_nd _ _ _ _ B) (gone_in g rows s S)) as (g1 & g2 & E1 & E2 & RD).
  rewrite E1 in E. cbn [lift pbind] in E. rewrite E2 in E. cbn [lift pbind] in E.
  destruct (solution_where_possible fuel g2) as [g3| |] eqn:E3; cbn [lift pbind] in E; try discriminate.
  destruct (get_solution g3) eqn:EG; [discriminate|]. injection E as <-.
  pose proof (left_consistent g (i_u s) g2 G (bk_rem_nd _ _ _ _ B) (rem_in g rows s S) RD) as C2.
  destruct (resolve_books _ _ _ E3) as (R1 & R2 & R3 & R4 & R5 & R6 & R7 & R8 & R9).
  split; [unfold is_consistent in *; cbv zeta in *; now rewrite R1, R2, R3, R4, R5, R6, R7, R8, R9|]. split.
  - intros o nm p q X. assert (I : In (nm, ActiveFree p q) (filter PresolveD.is_free (g_orig g3))) by (apply filter_In; split; [now apply (nth_error_In _ o)|reflexivity]).
    rewrite R9, (no_free g (i_u s) g2 RD) in I. exact I.
  - destruct (Nat.eq_dec (nr_vars g3) 0) as [Z|Z]; [|lia]. exfalso. revert EG. apply (all_known fuel g2); [|assumption].
    intros o nm e X. assert (Lo : (o < nr_vars g)%nat) by (rewrite <- (rd_no _ _ _ RD); apply nth_error_Some; congruence).
    destruct (entry_cases g (i_u s) g2 RD o Lo) as [(nm' & r & _ & X')|(nm' & j & _ & X' & Lj & _)]; rewrite X in X'; injection X' as -> ->; [now exists r|].
    exfalso. pose proof (rd_vars _ _ _ RD) as NV. unfold nr_vars in Z, NV. rewrite R5 in Z. lia.
Qed.
Lemma presolved_debug on r n fuel g : on SlackFixed = false -> general_ok g -> fresh g ->
  (forall g', presolve fuel g = Go g' -> enough r g') -> presolve_and_solve_debug on r n fuel g = presolve_and_solve r n fuel g.
Proof.
  intros off G F EN. unfold presolve_and_solve_debug, presolve_and_solve. rewrite (proj1 (presolve_agree on g off G F fuel)).
  pose proof (run_any fuel g G F) as P. destruct (presolve fuel g) as [g'|v| |] eqn:E; try reflexivity. cbn [any_outcome] in P.
  destruct (any_books fuel g g' G F E) as (C & U & L). apply solve_debug; [apply (wl_ok _ _ P)|assumption|assumption|apply (wl_acyclic _ _ P)|assumption|now apply EN].
Qed.
Lemma filter_debug g c d rm : general_ok g -> standard_shape g c -> derive_matrix_data g c = Ok d ->
  increasing_from 0 rm -> redundant (md_provider d) rm -> filter_ok d rm = true.
Proof.
  intros P SH E I R. destruct (derive_spec g c P SH) as (d' & E' & D). rewrite E in E'. injection E' as <-. now apply (redundant_filter g c d).
Qed.
