(** * From an MPS program to the answer of the solver *)
From Verif Require Import SpecMps BoundsP RangesP MpsP SparseP StandardP PipelineP Pipeline.
Local Open Scope Qc_scope.

Lemma convert_solvable m g : mps_solvable m -> to_general m = Got g -> general_ok g /\ fresh g.
Proof.
  intros [OK CO RA DO] E. destruct (convert_got m OK g E) as (EO & EF & ER & EC & EN & ENM & FR & NC & LT & LB & RR & VV).
  assert (OR : forall k, nth_error (g_orig g) k = match nth_error (m_columns m) k with Some c => Some (col_name c, Active k) | None => None end).
  { clear -E. unfold to_general in E. destruct (process_bounds _ _) as [vars| |]; [|discriminate|discriminate]. cbn [obind] in E. destruct (compute_constraint_info _ _ _) as [info| |]; [|discriminate|discriminate].
    cbn [obind] in E. injection E as <-. intros k. cbn. rewrite nth_error_map.
    assert (G : forall l s k, nth_error (number_from s l) k = option_map (fun x : string => ((s + k)%nat, x)) (nth_error l k)).
    { induction l as [|x l IH]; intros s [|q]; cbn; try reflexivity; [now rewrite Nat.add_0_r|]. rewrite IH. now replace (S s + q)%nat with (s + S q)%nat by lia. }
    rewrite G, nth_error_map. destruct (nth_error (m_columns m) k); reflexivity. }
  assert (FM : forall j, (j < nr_vars g)%nat -> nth j (g_from g) 0%nat = j).
  { clear -E. unfold to_general in E. destruct (process_bounds _ _) as [vars| |]; [|discriminate|discriminate]. cbn [obind] in E. destruct (compute_constraint_info _ _ _) as [info| |]; [|discriminate|discriminate].
    cbn [obind] in E. injection E as <-. intros j L. cbn. unfold range. rewrite Nat.sub_0_r. now rewrite seq_nth by exact L. }
  assert (LF : length (g_from g) = nr_vars g).
  { clear -E. unfold to_general in E. destruct (process_bounds _ _) as [vars| |]; [|discriminate|discriminate]. cbn [obind] in E. destruct (compute_constraint_info _ _ _) as [info| |]; [|discriminate|discriminate].
    cbn [obind] in E. injection E as <-. cbn. unfold range, nr_vars. rewrite seq_length. cbn. lia. }
  assert (AC : forall j, (j < nr_vars g)%nat -> exists name, nth_error (g_orig g) j = Some (name, Active j)).
  { intros j L. rewrite OR. rewrite EN in L. rewrite (nth_error_nth' (m_columns m) (mk_mcolumn "" false []) L). eexists. reflexivity. }
  assert (VS : forall j, (j < nr_vars g)%nat -> v_shift (var g j) = 0 /\ v_flipped (var g j) = false).
  { intros j L. rewrite EN in L. destruct (VV j _ (nth_error_nth' (m_columns m) (mk_mcolumn "" false []) L)) as (st & A & ->). destruct (fill_default_keeps st) as (_ & _ & -> & ->).
    rewrite (af_shift _ _ _ A), (af_flipped _ _ _ A). now split. }
  split.
  - constructor; try assumption.
    + rewrite EC, map_length. now rewrite EN.
    + now rewrite ER.
    + now rewrite ER.
    + intros j L. rewrite EC. rewrite EN in L. rewrite ER. change (@nil (nat * Qc)) with (col_values (mk_mcolumn "" false [])). rewrite map_nth. apply CO. now apply nth_In.
    + intros i r L T. rewrite ER in L. specialize (RR i L). rewrite T in RR. destruct RR as [(_ & P & _)|(r' & Hr & C)].
      * destruct (kind_at (m_rows m) i); discriminate.
      * destruct C as [(EV & _)|[(_ & D & _)|(_ & D & _)]]; [|discriminate|injection D as ->; unfold qabs; destruct (qltb r' 0) eqn:Q; [apply qltb_true in Q; qlra|now apply qltb_false in Q]].
        exfalso. destruct (RA i r' Hr) as [b Hb]. rewrite values_nil in EV. now apply EV in Hb.
    + intros j l u L El Eu. rewrite EN in L. destruct (DO j L) as [x Hx]. apply (convert_bounds m OK g j x E L) in Hx. destruct Hx as [A B]. specialize (A l El). specialize (B u Eu). qlra.
    + intros o name j Eo. rewrite OR in Eo. destruct (nth_error (m_columns m) o) as [c|] eqn:Ec; [|discriminate]. injection Eo as _ <-.
      assert (L : (o < nr_vars g)%nat) by (rewrite EN; apply nth_error_Some; congruence). split; [assumption|now apply FM].
    + intros o name p q Eo. rewrite OR in Eo. destruct (nth_error (m_columns m) o); discriminate.
    + intros j L _ _. split; [now apply VS|]. rewrite FM by assumption. now apply AC.
  - split; [|split; [exact AC|split; [exact VS|exact FM]]]. rewrite <- (map_length fst (g_orig g)), ENM, map_length. now rewrite EN.
Qed.
Lemma convert_optimal m g x : mps_solvable m -> to_general m = Got g -> (goptimal g x <-> moptimal m x).
Proof.
  intros [OK CO RA DO] E. unfold goptimal, moptimal. destruct (convert_got m OK g E) as (EO & _). rewrite (convert_feasible m OK g x E RA), (convert_cost m OK g x E), EO.
  split; intros [A B]; (split; [assumption|]); intros y Hy; [apply (convert_feasible m OK g y E RA) in Hy; specialize (B y Hy); rewrite (convert_cost m OK g y E) in B; exact B|].
  rewrite (convert_cost m OK g y E). apply B. now apply (convert_feasible m OK g y E RA).
Qed.
Lemma convert_unbounded m g : mps_solvable m -> to_general m = Got g -> (gunbounded g -> munbounded m).
Proof.
  intros [OK CO RA DO] E [[x Hx] B]. destruct (convert_got m OK g E) as (EO & _). split; [exists x; now apply (convert_feasible m OK g x E RA)|].
  intros bound. destruct (B bound) as (y & Hy & C). exists y. split; [now apply (convert_feasible m OK g y E RA)|]. rewrite EO, (convert_cost m OK g y E) in C. exact C.
Qed.
(** reading and solving *)
Lemma solved_minimum m g r rule fuel s : mps_solvable m -> to_general m = Got g -> m_objective m = Minimize -> solve_general r rule fuel g = Ok (Solved_to s) ->
  map fst (s_values s) = map col_name (m_columns m) /\ moptimal m (solution_point s) /\ s_objective s = mcost m (solution_point s).
Proof.
  intros S E MM R. destruct (convert_solvable m g S E) as [OK FR]. destruct (convert_got m (ms_ok m S) g E) as (EO & _ & _ & _ & _ & EN & _).
  destruct (fresh_optimum r rule fuel g s OK FR (eq_trans EO MM) R) as (A & B & C). rewrite EN in A. split; [assumption|]. split; [now apply (convert_optimal m g _ S E)|].
  rewrite C. apply (convert_cost m (ms_ok m S) g _ E).
Qed.
Lemma solved_none m g r rule fuel : mps_solvable m -> to_general m = Got g -> solve_general r rule fuel g = Ok NoSolution -> forall x, ~ mfeasible m x.
Proof.
  intros S E R x Hx. destruct (convert_solvable m g S E) as [OK FR]. apply (solve_general_infeasible r rule fuel g OK R x). apply (convert_feasible m (ms_ok m S) g x E (ms_ranges m S)). exact Hx.
Qed.
Lemma solved_unbounded m g r rule fuel : mps_solvable m -> to_general m = Got g -> solve_general r rule fuel g = Ok NoBound -> munbounded m.
Proof.
  intros S E R. destruct (convert_solvable m g S E) as [OK FR]. apply (convert_unbounded m g S E). now apply (solve_general_unbounded r rule fuel g).
Qed.
Lemma solved_maximum m g r rule fuel s : mps_solvable m -> to_general m = Got g -> m_objective m = Maximize -> solve_general r rule fuel g = Ok (Solved_to s) ->
  map fst (s_values s) = map col_name (m_columns m) /\ moptimal m (solution_point s).
Proof.
  intros S E MM R. destruct (convert_solvable m g S E) as [OK FR]. destruct (convert_got m (ms_ok m S) g E) as (EO & _ & _ & _ & _ & EN & _).
  destruct (fresh_maximum r rule fuel g s OK FR (eq_trans EO MM) R) as (A & B & C). rewrite EN in A. split; [assumption|]. now apply (convert_optimal m g _ S E).
Qed.
(** the conversion rejects exactly the programs that break a rule *)
Lemma consistent_iff m : (no_conflict m /\ fits_rows m) <-> (mps_consistent m /\ ~ repeated_range_rhs m).
Proof.
  split.
  - intros [NC (ND & RR & KE & RP)]. split.
    + constructor; try assumption. intros j t HF Ht. destruct t; try reflexivity; exfalso; apply (NC j); (split; [exact HF|]); eexists; (split; [|exact Ht]); discriminate.
    + intros (i & r & K & Hr & P & L). rewrite <- values_length in L. specialize (RP i r K Hr P). lia.
  - intros [[FR ND RR KE] NR]. split.
    + intros j [HF (t & Nt & Ht)]. apply Nt. now apply (FR j).
    + split; [assumption|]. split; [assumption|]. split; [assumption|]. intros i r K Hr P. destruct (Nat.le_gt_cases (length (values_at i (ungroup (m_rhss m)))) 1) as [L|L]; [assumption|].
      exfalso. apply NR. exists i, r. rewrite <- values_length. now repeat split.
Qed.
Lemma convert_decides m : mps_ok m ->
  (mps_consistent m /\ ~ repeated_range_rhs m -> exists g, to_general m = Got g) /\
  (~ (mps_consistent m /\ ~ repeated_range_rhs m) -> to_general m = Rejected Inconsistent).
Proof. intros OK. destruct (convert_outcome m OK) as [A B]. split; intros H; [apply A; now apply consistent_iff|apply B; intros C; apply H; now apply consistent_iff]. Qed.
Lemma convert_consistent m g : mps_ok m -> to_general m = Got g -> mps_consistent m /\ ~ repeated_range_rhs m.
Proof. intros OK E. apply consistent_iff. destruct (convert_got m OK g E) as (_ & _ & _ & _ & _ & _ & FR & NC & _). now split. Qed.
(** the parts of a converted program *)
Lemma converted_rows m g i : mps_ok m -> to_general m = Got g -> (i < length (m_rows m))%nat -> (forall r, ~ given_range m i r) -> forall v,
  rel_holds (row_type g i) (nthq (g_b g) i) v <-> (forall b, given_rhs m i b \/ (b = 0 /\ forall c, ~ given_rhs m i c) -> plain_holds (kind_of m i) b v).
Proof. intros OK E L N v. destruct (convert_got m OK g E) as (_ & _ & _ & _ & _ & _ & FR & NC & _ & _ & RR & _). now apply result_plain; [apply RR|]. Qed.
Lemma converted_ranges m g i r b : mps_ok m -> to_general m = Got g -> given_range m i r -> given_rhs m i b -> forall v,
  rel_holds (row_type g i) (nthq (g_b g) i) v <-> range_holds (kind_of m i) b r v.
Proof. intros OK E Hr Hb v. destruct (convert_got m OK g E) as (_ & _ & _ & _ & _ & _ & FR & NC & _ & _ & RR & _). apply result_range; try assumption; [apply FR|apply RR; now apply (mo_range m OK i r)]. Qed.
Lemma converted_default m g i r : mps_ok m -> to_general m = Got g -> given_range m i r -> (forall b, ~ given_rhs m i b) ->
  nthq (g_b g) i = 0 /\ row_type g i = if qzero r then Equal else Range r.
Proof. intros OK E Hr Hb. destruct (convert_got m OK g E) as (_ & _ & _ & _ & _ & _ & FR & NC & _ & _ & RR & _). apply (result_no_rhs m i); try assumption; [apply FR|apply RR; now apply (mo_range m OK i r)]. Qed.
Lemma converted_default_less m g i r : mps_ok m -> to_general m = Got g -> kind_of m i = KLess -> given_range m i r -> 0 <= r -> (forall b, ~ given_rhs m i b) -> forall v,
  rel_holds (row_type g i) (nthq (g_b g) i) v <-> range_holds KLess 0 r v.
Proof.
  intros OK E K Hr P Hb v. destruct (converted_default m g i r OK E Hr Hb) as [-> ->]. assert (A : qabs r = r) by (unfold qabs; destruct (qltb r 0) eqn:Q; [apply qltb_true in Q; exfalso; qlra|reflexivity]).
  destruct (qzero r) eqn:Z; [apply qeqb_true in Z; subst r; cbn; apply (range_zero_holds KLess)|]. cbn. now rewrite A.
Qed.
(** the bounds of a converted program *)
Lemma converted_lower m g j l : mps_ok m -> to_general m = Got g -> (j < length (m_columns m))%nat -> v_lower (var g j) = Some l ->
  (exists t, stated m j t /\ low_of t = Some l) \/ (l = 0 /\ forall t, stated m j t -> leaves_lower t).
Proof.
  intros OK E L El. destruct (convert_got m OK g E) as (_ & _ & _ & _ & _ & _ & _ & _ & _ & _ & _ & V). destruct (V j _ (nth_error_nth' (m_columns m) (mk_mcolumn "" false []) L)) as (st & A & Ev).
  rewrite Ev in El. destruct (proj1 (after_bounds_exact _ _ _ A) l El) as [(t & H & K)|[-> H]]; [left; exists t; split; [now apply values_at_In|assumption]|right].
  split; [reflexivity|]. intros t T. apply H. now apply values_at_In.
Qed.
Lemma converted_upper m g j u : mps_ok m -> to_general m = Got g -> (j < length (m_columns m))%nat -> v_upper (var g j) = Some u ->
  exists t, stated m j t /\ up_of t = Some u.
Proof.
  intros OK E L Eu. destruct (convert_got m OK g E) as (_ & _ & _ & _ & _ & _ & _ & _ & _ & _ & _ & V). destruct (V j _ (nth_error_nth' (m_columns m) (mk_mcolumn "" false []) L)) as (st & A & Ev).
  rewrite Ev in Eu. destruct (proj2 (after_bounds_exact _ _ _ A) u Eu) as (t & H & K). exists t. split; [now apply values_at_In|assumption].
Qed.
Lemma converted_integer m g j : mps_ok m -> to_general m = Got g -> (j < length (m_columns m))%nat ->
  (v_integer (var g j) = true <-> col_integer (nth j (m_columns m) (mk_mcolumn "" false [])) = true \/ exists t, stated m j t /\ makes_integer t).
Proof.
  intros OK E L. destruct (convert_got m OK g E) as (_ & _ & _ & _ & _ & _ & _ & _ & _ & _ & _ & V). destruct (V j _ (nth_error_nth' (m_columns m) (mk_mcolumn "" false []) L)) as (st & A & ->).
  destruct (fill_default_keeps st) as (-> & _). rewrite (af_integer _ _ _ A). cbn [v_integer]. rewrite orb_true_iff, existsb_exists.
  assert (MI : forall t, integerb t = true <-> makes_integer t) by (intros []; cbn; split; congruence || tauto).
  split; (intros [H|(t & H & K)]; [now left|right; exists t; split; [now apply values_at_In|now apply MI]]).
Qed.
Lemma converted_rest m g : mps_ok m -> to_general m = Got g ->
  g_objective g = m_objective m /\ g_rows g = length (m_rows m) /\ nr_vars g = length (m_columns m) /\ map fst (g_orig g) = map col_name (m_columns m) /\
  (forall i j, coefficient g i j = mcoefficient m i j) /\ (forall x, gcost g x = mcost m x).
Proof.
  intros OK E. destruct (convert_got m OK g E) as (EO & EF & ER & EC & EN & ENM & _). repeat (split; [assumption|]). split.
  - intros i j. unfold coefficient, mcoefficient. rewrite EC. rewrite <- (map_nth col_values (m_columns m) (mk_mcolumn "" false []) j). reflexivity.
  - intros x. now apply convert_cost.
Qed.
