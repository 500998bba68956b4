(** * Converting MPS programs *)
From Verif Require Import SpecMps BoundsP RangesP.
Local Open Scope Qc_scope.

Lemma values_nil {A} i (l : list (nat * A)) : values_at i l = [] <-> forall x, ~ In (i, x) l.
Proof.
  split.
  - intros E x H. apply values_at_In in H. rewrite E in H. destruct H.
  - intros H. destruct (values_at i l) as [|x t] eqn:E; [reflexivity|]. exfalso. apply (H x). apply values_at_In. rewrite E. now left.
Qed.
Lemma values_length {A} i (l : list (nat * A)) : length (values_at i l) = length (filter (fun e => Nat.eqb (fst e) i) l).
Proof. apply map_length. Qed.
Lemma range_unique (l : list (nat * Qc)) i r r' : NoDup (map fst l) -> In (i, r) l -> In (i, r') l -> r = r'.
Proof.
  induction l as [|[a b] l IH]; cbn; [intros _ []|]. intros ND. inversion ND as [|? ? N D]; subst.
  intros [E|H] [E'|K]; [congruence| | |now apply IH]; exfalso; apply N.
  - injection E as -> ->. apply in_map_iff. exists (i, r'). now split.
  - injection E' as -> ->. apply in_map_iff. exists (i, r). now split.
Qed.
Section Convert.
Variable m : mps.
Hypothesis OK : mps_ok m.
Local Notation n := (length (m_columns m)).
Local Notation vars0 := (variables_from 0 (m_columns m) (m_costs m)).
Lemma ok_costs : ascending 0 n (m_costs m).
Proof using OK. apply ascending_sorted; [exact (mo_cost m OK)|exact (mo_costs m OK)]. Qed.
Definition fits_rows : Prop := rows_good (m_rows m) (m_rhss m) (m_ranges m).
Lemma info_cases :
  (fits_rows /\ exists types b, compute_constraint_info (m_rows m) (m_rhss m) (m_ranges m) = Got (types, b) /\
    length types = length (m_rows m) /\ length b = length (m_rows m) /\
    forall i, (i < length (m_rows m))%nat -> row_result (m_rows m) (m_rhss m) (m_ranges m) i (nth i types Equal) (nthq b i)) \/
  (~ fits_rows /\ compute_constraint_info (m_rows m) (m_rhss m) (m_ranges m) = Rejected Inconsistent).
Proof using OK.
  unfold compute_constraint_info. destruct (compute_ranges_outcome (m_rhss m) (m_ranges m) (length (m_rows m)) (mo_rhs m OK) (mo_range m OK)) as [[[ND RR] (rr & -> & AL & IL)]|[NG ->]].
  2:{ right. split; [|reflexivity]. intros (A & B & _). apply NG. now split. }
  cbn [obind]. unfold compute_b. set (types0 := types_from 0 (m_rows m) rr). destruct (types_from_spec (m_rows m) 0 rr _ AL) as [LT HT]. fold types0 in LT, HT.
  assert (I0 : row_inv (m_rows m) (repeat None (length (m_rows m)), types0)) by (split; cbn; [apply repeat_length|assumption]).
  assert (GET : forall i a, row_get (repeat None (length (m_rows m)), types0) i = Some a -> exists t0, a = (None, t0) /\
     ((exists r, In (i, r) (ungroup (m_ranges m)) /\ t0 = if qzero r then Equal else Range r) \/ ((forall r, ~ In (i, r) (ungroup (m_ranges m))) /\ t0 = plain (kind_at (m_rows m) i)))).
  { intros i a. unfold row_get. cbn [fst snd]. destruct (nth_error (repeat None (length (m_rows m))) i) as [o|] eqn:Eb; [|discriminate]. destruct (nth_error types0 i) as [t0|] eqn:Et; [|discriminate].
    intros E. injection E as <-. exists t0. assert (o = None) by (apply nth_error_In in Eb; now apply repeat_spec in Eb). subst o. split; [reflexivity|].
    assert (L : (i < length (m_rows m))%nat) by (rewrite <- LT; apply nth_error_Some; congruence).
    destruct (HT i _ (nth_error_nth' (m_rows m) (mk_mrow "" KEqual) L)) as (t1 & Et1 & CT). cbn [Nat.add] in CT. assert (t1 = t0) by congruence. subst t1.
    destruct CT as [(r & H & Q)|[H Q]]; [left; exists r; split; [now apply IL|assumption]|right; split; [intros r K; apply (H r); now apply IL|assumption]]. }
  assert (DEF : forall i, (i < length (m_rows m))%nat -> exists a, row_get (repeat None (length (m_rows m)), types0) i = Some a).
  { intros i L. unfold row_get. cbn [fst snd]. rewrite (nth_error_nth' (repeat None (length (m_rows m))) None) by now rewrite repeat_length.
    rewrite (nth_error_nth' types0 Equal) by (rewrite LT; exact L). eexists. reflexivity. }
  destruct (foldO (b_step (m_rows m)) (ungroup (m_rhss m)) (repeat None (length (m_rows m)), types0)) as [st|e|] eqn:F; cbn [obind fst snd].
  - left. destruct (fold_step row_get (b_step (m_rows m)) (fun i => row_step (kind_at (m_rows m) i)) (row_inv (m_rows m)) (b_step_none (m_rows m)) (b_step_some (m_rows m)) _ _ _ I0 F) as [[L1 L2] P].
    assert (ROW : forall i, (i < length (m_rows m))%nat -> exists t0 o t,
       nth_error (fst st) i = Some o /\ nth_error (snd st) i = Some t /\
       foldO (row_step (kind_at (m_rows m) i)) (values_at i (ungroup (m_rhss m))) (None, t0) = Got (o, t) /\
       ((exists r, In (i, r) (ungroup (m_ranges m)) /\ t0 = if qzero r then Equal else Range r) \/ ((forall r, ~ In (i, r) (ungroup (m_ranges m))) /\ t0 = plain (kind_at (m_rows m) i)))).
    { intros i L. specialize (P i). destruct (DEF i L) as [a Ea]. rewrite Ea in P. destruct (GET i a Ea) as (t0 & -> & CT). destruct P as ([o t] & G & FF). exists t0, o, t. unfold row_get in G.
      destruct (nth_error (fst st) i) as [o'|]; [|discriminate]. destruct (nth_error (snd st) i) as [t'|]; [|discriminate]. injection G as -> ->. now repeat (split; [reflexivity || assumption|]). }
    split.
    + split; [assumption|]. split; [assumption|]. split.
      * intros i x y K Hx Hy. destruct (ROW i (mo_rhs m OK _ _ Hx)) as (t0 & o & t & _ & _ & FF & CT).
        pose proof (row_outcome (m_rows m) (m_rhss m) (m_ranges m) i t0 (RR i) CT) as RO. rewrite FF in RO. destruct RO as (_ & RO & _). now apply RO.
      * intros i r K Hr Pr. destruct (ROW i (mo_range m OK _ _ Hr)) as (t0 & o & t & _ & _ & FF & CT).
        pose proof (row_outcome (m_rows m) (m_rhss m) (m_ranges m) i t0 (RR i) CT) as RO. rewrite FF in RO. destruct RO as (_ & _ & RO). apply (RO K r); [|assumption].
        destruct CT as [(r' & H & ->)|[H _]]; [|now apply H in Hr]. rewrite (range_unique _ i r' r ND H Hr).
        destruct (qzero r) eqn:Z; [apply qeqb_true in Z; subst r; exfalso; now apply Qclt_not_le in Pr; apply Pr, Qcle_refl|reflexivity].
    + eexists _, _. split; [reflexivity|]. split; [assumption|]. split; [now rewrite map_length|].
      intros i L. destruct (ROW i L) as (t0 & o & t & Eo & Et & FF & CT).
      pose proof (row_outcome (m_rows m) (m_rhss m) (m_ranges m) i t0 (RR i) CT) as RO. rewrite FF in RO. destruct RO as [RO _].
      rewrite (nth_error_nth _ _ _ Et). unfold nthq. rewrite (nth_error_nth _ _ 0 (map_nth_error _ _ _ Eo)). exact RO.
  - right. destruct (fold_step_rejected row_get (b_step (m_rows m)) (fun i => row_step (kind_at (m_rows m) i)) (row_inv (m_rows m)) (b_step_none (m_rows m)) (b_step_some (m_rows m)) _ _ _ I0 F) as (i & a & G & R).
    destruct (GET i a G) as (t0 & -> & CT). pose proof (row_outcome (m_rows m) (m_rhss m) (m_ranges m) i t0 (RR i) CT) as RO. rewrite R in RO. destruct RO as (-> & K & C). split; [|reflexivity].
    intros (_ & _ & G3 & G4). destruct C as [(x & y & Hx & Hy & N)|(r & Hr & Pr & L)]; [apply N; now apply (G3 i)|]. specialize (G4 i r K Hr Pr). lia.
  - exfalso. destruct (fold_step_crash row_get (b_step (m_rows m)) (fun i => row_step (kind_at (m_rows m) i)) (row_inv (m_rows m)) (b_step_none (m_rows m)) (b_step_some (m_rows m)) _ _ I0 F) as [(i & x & H & N)|(i & a & G & R)].
    + destruct (DEF i (mo_rhs m OK _ _ H)) as [a Ea]. congruence.
    + destruct (GET i a G) as (t0 & -> & CT). pose proof (row_outcome (m_rows m) (m_rhss m) (m_ranges m) i t0 (RR i) CT) as RO. now rewrite R in RO.
Qed.
(** ** The meaning of a converted row *)
Lemma range_bound_holds k r b v : r <> 0 -> rel_holds (Range (qabs r)) (range_bound k r b) v <-> range_holds k b r v.
Proof.
  intros N. unfold rel_holds, range_bound, range_holds. destruct k; [reflexivity| |].
  - destruct (qneg r); [reflexivity|]. replace (b + qabs r - qabs r) with b by ring. reflexivity.
  - replace (b + qabs r - qabs r) with b by ring. reflexivity.
Qed.
Lemma range_zero_holds k b v : v = b <-> range_holds k b 0 v.
Proof.
  assert (Z : qabs 0 = 0) by reflexivity. unfold range_holds. change (qneg 0) with false. rewrite Z.
  destruct k; split; [intros ->; split; qlra|intros [A B]; apply Qcle_antisym; qlra|intros ->; split; qlra|intros [A B]; apply Qcle_antisym; qlra|intros ->; split; qlra|intros [A B]; apply Qcle_antisym; qlra].
Qed.
Lemma result_plain i t b v : row_result (m_rows m) (m_rhss m) (m_ranges m) i t b -> (forall r, ~ given_range m i r) ->
  (rel_holds t b v <-> (forall b', given_rhs m i b' \/ (b' = 0 /\ forall c, ~ given_rhs m i c) -> plain_holds (kind_of m i) b' v)).
Proof.
  intros [(_ & -> & C)|(r & H & _)] NR; [|now apply NR in H]. change (kind_at (m_rows m) i) with (kind_of m i) in *.
  assert (IV : forall x, In x (values_at i (ungroup (m_rhss m))) <-> given_rhs m i x) by (intros x; apply values_at_In).
  destruct C as [[E ->]|[[[K C] NE]|[[K C]|[K C]]]].
  - rewrite values_nil in E. split.
    + intros H b' [Hb|[-> _]]; [now apply E in Hb|]. destruct (kind_of m i); exact H.
    + intros H. specialize (H 0 (or_intror (conj eq_refl E))). destruct (kind_of m i); exact H.
  - rewrite K in *. cbn. destruct (values_at i (ungroup (m_rhss m))) as [|y vs] eqn:EV; [now destruct NE|]. split.
    + intros -> b' [Hb|[_ Hb]]; [apply C; now apply IV|]. exfalso. apply (Hb y). apply IV. now left.
    + intros H. rewrite (C y (or_introl eq_refl)). apply H. left. apply IV. now left.
  - rewrite K in *. cbn in *. destruct C as [C1 C2]. split.
    + intros H b' [Hb|[_ Hb]]; [apply Qcle_trans with b; [assumption|apply C2; now apply IV]|]. exfalso. apply (Hb b). now apply IV.
    + intros H. apply H. left. now apply IV.
  - rewrite K in *. cbn in *. destruct C as [C1 C2]. split.
    + intros H b' [Hb|[_ Hb]]; [apply Qcle_trans with b; [apply C2; now apply IV|assumption]|]. exfalso. apply (Hb b). now apply IV.
    + intros H. apply H. left. now apply IV.
Qed.
Lemma result_range i t b v r b0 : NoDup (map fst (ungroup (m_ranges m))) -> row_result (m_rows m) (m_rhss m) (m_ranges m) i t b -> given_range m i r -> given_rhs m i b0 ->
  (rel_holds t b v <-> range_holds (kind_of m i) b0 r v).
Proof.
  intros ND [(NR & _)|(r' & H & C)] Hr Hb; [now apply NR in Hr|]. rewrite (range_unique _ i r' r ND H Hr) in C. apply values_at_In in Hb. change (kind_at (m_rows m) i) with (kind_of m i) in C.
  destruct C as [(E & _)|[(-> & -> & _ & C)|(N & -> & _ & C)]].
  - rewrite E in Hb. destruct Hb.
  - rewrite (C b0 Hb). cbn. apply range_zero_holds.
  - rewrite (C b0 Hb). now apply range_bound_holds.
Qed.
Lemma result_no_rhs i t b r : NoDup (map fst (ungroup (m_ranges m))) -> row_result (m_rows m) (m_rhss m) (m_ranges m) i t b -> given_range m i r -> (forall b0, ~ given_rhs m i b0) ->
  b = 0 /\ t = if qzero r then Equal else Range r.
Proof.
  intros ND [(NR & _)|(r' & H & C)] Hr Hb; [now apply NR in Hr|]. rewrite (range_unique _ i r' r ND H Hr) in C. apply values_nil in Hb.
  destruct C as [(E & C)|[(_ & _ & E & _)|(_ & _ & E & _)]]; [assumption|congruence|congruence].
Qed.
(** ** The whole program *)
Lemma vars0_spec : length vars0 = n /\ forall j c, nth_error (m_columns m) j = Some c -> nth_error vars0 j = Some (mk_var (col_integer c) (den (m_costs m) j) None None 0 false).
Proof using OK. apply (variables_from_spec (m_columns m) 0 (m_costs m) n ok_costs). Qed.
Definition no_conflict : Prop := forall j, ~ conflict (m_bounds m) j.
Lemma convert_got g : to_general m = Got g ->
  g_objective g = m_objective m /\ g_fixed g = 0 /\ g_rows g = length (m_rows m) /\ g_cols g = map col_values (m_columns m) /\ nr_vars g = n /\
  map fst (g_orig g) = map col_name (m_columns m) /\
  fits_rows /\ no_conflict /\
  length (g_types g) = length (m_rows m) /\ length (g_b g) = length (m_rows m) /\
  (forall i, (i < length (m_rows m))%nat -> row_result (m_rows m) (m_rhss m) (m_ranges m) i (row_type g i) (nthq (g_b g) i)) /\
  (forall j c, nth_error (m_columns m) j = Some c -> exists st,
     after (mk_var (col_integer c) (den (m_costs m) j) None None 0 false) (statements (m_bounds m) j) st /\ var g j = fill_default st).
Proof using OK.
  unfold to_general. destruct (process_bounds vars0 (m_bounds m)) as [vars|e|] eqn:PB; [|discriminate|discriminate]. cbn [obind].
  destruct info_cases as [[FR (types & b & EI & LT & LB & RR)]|[_ EI]]; rewrite EI; cbn [obind]; [|discriminate]. intros E. injection E as <-.
  destruct (process_bounds_got _ _ _ (variables_from_unbounded _ _ _) PB) as [LV PV]. destruct vars0_spec as [L0 V0].
  split; [reflexivity|]. split; [reflexivity|]. split; [reflexivity|]. split; [reflexivity|]. split; [unfold nr_vars; cbn; lia|]. split.
  { cbn. rewrite map_map. assert (G : forall (l : list string) s, map (fun x : nat * string => fst (let '(j, name) := x in (name, Active j))) (number_from s l) = l).
    { induction l as [|x l IH]; intros s; cbn; [reflexivity|]. now rewrite IH. } apply G. }
  split; [assumption|]. split.
  { intros j C. destruct (process_bounds_outcome vars0 (m_bounds m) (variables_from_unbounded _ _ _)) as [PR _].
    - intros k t H. rewrite L0. now apply (mo_bound m OK).
    - rewrite PR in PB; [discriminate|]. now exists j. }
  split; [assumption|]. split; [assumption|]. split; [assumption|].
  intros j c Ec. destruct (PV j _ (V0 j c Ec)) as (st & A & Ev & _). exists st. split; [assumption|]. unfold var. cbn. now rewrite (nth_error_nth _ _ _ Ev).
Qed.
Lemma convert_outcome : (no_conflict /\ fits_rows -> exists g, to_general m = Got g) /\ (~ (no_conflict /\ fits_rows) -> to_general m = Rejected Inconsistent) .
Proof using OK.
  destruct vars0_spec as [L0 V0].
  destruct (process_bounds_outcome vars0 (m_bounds m) (variables_from_unbounded _ _ _)) as [PR PG]; [intros k t H; rewrite L0; now apply (mo_bound m OK)|].
  assert (D : (exists vars, process_bounds vars0 (m_bounds m) = Got vars /\ no_conflict) \/ (process_bounds vars0 (m_bounds m) = Rejected Inconsistent /\ ~ no_conflict)).
  { assert (CD : (exists j, conflict (m_bounds m) j) \/ no_conflict).
    { assert (DB : forall l : list (nat * bound_type), (exists e, In e l /\ conflict (m_bounds m) (fst e)) \/ forall e, In e l -> ~ conflict (m_bounds m) (fst e)).
      { assert (DC : forall j, conflict (m_bounds m) j \/ ~ conflict (m_bounds m) j).
        { intros j. destruct (existsb freeb (statements (m_bounds m) j)) eqn:E1.
          - destruct (existsb (fun t => negb (freeb t)) (statements (m_bounds m) j)) eqn:E2.
            + left. apply existsb_exists in E1, E2. destruct E1 as (f & Hf & Ef), E2 as (t & Ht & Et). apply freeb_true in Ef. subst f. apply negb_true_iff, freeb_false in Et.
              split; [now apply values_at_In|]. exists t. split; [assumption|]. now apply values_at_In.
            + right. intros [_ (t & Nt & Ht)]. apply values_at_In in Ht. apply freeb_false in Nt. assert (existsb (fun t => negb (freeb t)) (statements (m_bounds m) j) = true); [|congruence].
              apply existsb_exists. exists t. split; [assumption|]. now rewrite Nt.
          - right. intros [H _]. apply values_at_In in H. assert (existsb freeb (statements (m_bounds m) j) = true); [|congruence]. apply existsb_exists. now exists Free. }
        induction l as [|e l IH]; [right; intros e []|]. destruct (DC (fst e)) as [C|C]; [left; exists e; split; [now left|assumption]|].
        destruct IH as [(f & H & K)|IH]; [left; exists f; split; [now right|assumption]|]. right. intros f [<-|H]; [assumption|now apply IH]. }
      destruct (DB (ungroup (m_bounds m))) as [(e & _ & C)|N]; [left; now exists (fst e)|]. right. intros j C. apply (N (j, Free)); [apply C|exact C]. }
    destruct CD as [C|C]; [right|left].
    - split; [now apply PR|]. intros N. destruct C as [j C]. now apply N in C.
    - destruct (PG C) as [vars E]. now exists vars. }
  unfold to_general. destruct D as [(vars & -> & NC)|[-> NC]]; cbn [obind].
  - destruct info_cases as [[FR (types & b & -> & _)]|[NF ->]]; cbn [obind].
    + split; [intros _; eexists; reflexivity|]. intros C. destruct C. now split.
    + split; [intros [_ C]; now apply NF in C|reflexivity].
  - split; [intros [C _]; now apply NC in C|reflexivity].
Qed.
Lemma no_semi j t : In t (statements (m_bounds m) j) -> ~ is_semi t.
Proof using OK. intros H. apply values_at_In in H. now apply (mo_bound m OK) in H. Qed.
Lemma convert_bounds g j x : to_general m = Got g -> (j < n)%nat -> (in_bounds (var g j) x <-> mvalue_allowed m j x).
Proof using OK.
  intros E L. destruct (convert_got g E) as (_ & _ & _ & _ & _ & _ & _ & _ & _ & _ & _ & V). destruct (V j _ (nth_error_nth' (m_columns m) (mk_mcolumn "" false []) L)) as (st & A & ->).
  rewrite (after_in_bounds _ _ _ x A (no_semi j)). unfold mvalue_allowed, stated. split; intros [H K]; (split; [intros t T; apply H; now apply values_at_In|]); intros Q; apply K; intros t T; apply Q; now apply values_at_In.
Qed.
Lemma convert_value g x i : to_general m = Got g -> row_value g x i = mrow_value m x i.
Proof using OK.
  intros E. destruct (convert_got g E) as (_ & _ & _ & EC & EN & _). unfold row_value, mrow_value. rewrite EN. apply LinAlg.sum_ext. intros j L. f_equal. unfold coefficient, mcoefficient. rewrite EC.
  rewrite <- (map_nth col_values (m_columns m) (mk_mcolumn "" false []) j). reflexivity.
Qed.
Lemma convert_row g i v : to_general m = Got g -> (forall i r, given_range m i r -> exists b, given_rhs m i b) -> (i < length (m_rows m))%nat ->
  (rel_holds (row_type g i) (nthq (g_b g) i) v <-> mrow_holds m i v).
Proof using OK.
  intros E RB L. destruct (convert_got g E) as (_ & _ & _ & _ & _ & _ & FR & _ & _ & _ & RR & _). specialize (RR i L). unfold mrow_holds.
  assert (D : (exists r, given_range m i r) \/ forall r, ~ given_range m i r).
  { destruct (values_at i (ungroup (m_ranges m))) as [|r l] eqn:V; [right; now apply values_nil|left; exists r; apply values_at_In; rewrite V; now left]. }
  destruct D as [[r Hr]|NR].
  - destruct (RB i r Hr) as [b0 Hb]. destruct FR as (ND & SR & _). rewrite (result_range i _ _ v r b0 ND RR Hr Hb). split.
    + intros H b [K|[_ K]]; [|now apply K in Hb]. split; [intros N; now apply N in Hr|]. intros r' Hr'. rewrite (range_unique _ i r' r ND Hr' Hr), (SR i r b b0 Hr K Hb). exact H.
    + intros H. now apply (H b0 (or_introl Hb)).
  - rewrite (result_plain i _ _ v RR NR). split.
    + intros H b K. split; [intros _; now apply H|]. intros r Hr. now apply NR in Hr.
    + intros H b K. now apply (H b K).
Qed.
Lemma convert_feasible g x : to_general m = Got g ->
  (forall i r, given_range m i r -> exists b, given_rhs m i b) -> (gfeasible g x <-> mfeasible m x).
Proof using OK.
  intros E RB. destruct (convert_got g E) as (_ & _ & ER & _ & EN & _). unfold gfeasible, mfeasible. rewrite ER, EN.
  split; intros [A B]; (split; [intros i L; specialize (A i L); rewrite (convert_value g x i E) in *; now apply (convert_row g i _ E RB L)|intros j L; specialize (B j L); now apply (convert_bounds g j (x j) E L)]).
Qed.
Lemma convert_cost g x : to_general m = Got g -> gcost g x = mcost m x.
Proof using OK.
  intros E. destruct (convert_got g E) as (_ & EF & _ & _ & EN & _ & _ & _ & _ & _ & _ & V). unfold gcost, mcost. rewrite EF, EN, Qcplus_0_l. apply LinAlg.sum_ext. intros j L. f_equal.
  destruct (V j _ (nth_error_nth' (m_columns m) (mk_mcolumn "" false []) L)) as (st & A & ->). destruct (fill_default_keeps st) as (_ & -> & _). rewrite (af_cost _ _ _ A). reflexivity.
Qed.
End Convert.
