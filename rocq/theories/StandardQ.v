(** * Right-hand sides, objective and grouping (proofs about GeneralForm.v, continued) *)
From Verif Require Import SpecGeneral SparseP KindP FinishP StandardP.
Local Open Scope Qc_scope.

(** steps that keep the variables *)
Lemma corr_same g g' (sigma : nat -> nat) : general_ok g -> g_vars g' = g_vars g -> g_orig g' = g_orig g -> g_objective g' = g_objective g ->
  g_fixed g' = g_fixed g -> (forall x, gfeasible g' x <-> gfeasible g x) -> corr True g g' (fun x => x) (fun x => x).
Proof.
  intros P HV HO HD HF FE.
  assert (N : nr_vars g' = nr_vars g) by (unfold nr_vars; now rewrite HV).
  assert (V : forall j, var g' j = var g j) by (intros; unfold var; now rewrite HV).
  constructor; auto.
  - intros x H. now apply FE.
  - intros x H. now apply FE.
  - intros x. unfold gcost. rewrite N, HF. f_equal. apply sum_ext. intros. now rewrite V.
  - intros x y H j Lj. apply H. lia.
  - intros x y H j Lj. apply H. lia.
  - intros x val. unfold completed. rewrite HO.
    assert (EV : forall e, entry_value g' x val e = entry_value g x val e).
    { intros [k|p q|[v|c l]]; cbn [entry_value]; rewrite ?V; reflexivity. }
    split; intros H o name e He; [rewrite <- EV|rewrite EV]; now apply (H o name).
  - now rewrite HO.
  - intros o name r H. now rewrite HO in H.
Qed.

(** ** Right-hand sides *)
Lemma In_number_from {A} (l : list A) k i v : In (i, v) (number_from k l) <-> (k <= i)%nat /\ nth_error l (i - k) = Some v.
Proof.
  revert k. induction l as [|x l IH]; intros k; cbn [number_from In].
  - split; [intros []|]. intros [_ H]. destruct (i - k)%nat; discriminate.
  - rewrite IH. split.
    + intros [[= <- <-]|[L H]]; [rewrite Nat.sub_diag; auto|]. split; [lia|].
      replace (i - k)%nat with (Datatypes.S (i - Datatypes.S k)) by lia. assumption.
    + intros [L H]. destruct (Nat.eq_dec i k) as [->|N]; [left; rewrite Nat.sub_diag in H; injection H as ->; reflexivity|].
      right. split; [lia|]. replace (i - k)%nat with (Datatypes.S (i - Datatypes.S k)) in H by lia. assumption.
Qed.
Lemma number_from_fst {A} (l : list A) k : map fst (number_from k l) = seq k (length l).
Proof. revert k. induction l; intros k; cbn; [reflexivity|]. now rewrite IHl. Qed.
Lemma number_from_length {A} (l : list A) k : length (number_from k l) = length l.
Proof. revert k. induction l; intros k; cbn; [reflexivity|]. now rewrite IHl. Qed.
Lemma NoDup_map_filter {A B} (f : A -> B) (p : A -> bool) l : NoDup (map f l) -> NoDup (map f (filter p l)).
Proof.
  induction l as [|x l IH]; cbn; intros H; [constructor|]. inversion H as [|a b N ND]; subst a b.
  destruct (p x); cbn; [constructor|]; auto. intro C. apply N. apply in_map_iff in C. destruct C as (y & E & Hy).
  apply filter_In in Hy. rewrite <- E. apply in_map. tauto.
Qed.

Definition neg_type (t : rel) : rel := match t with Less => Greater | Greater => Less | _ => t end.
Definition neg_b (t : rel) (b : Qc) : Qc := match t with Range r => r - b | _ => b * - (1) end.

Lemma negate_fold rows : forall types b, NoDup rows -> (forall i, In i rows -> (i < length types)%nat /\ (i < length b)%nat) ->
  exists types' b', foldM negate_row rows (types, b) = Ok (types', b') /\ length types' = length types /\ length b' = length b /\
  forall i, (In i rows -> nth i types' Equal = neg_type (nth i types Equal) /\ nthq b' i = neg_b (nth i types Equal) (nthq b i)) /\
            (~ In i rows -> nth i types' Equal = nth i types Equal /\ nthq b' i = nthq b i).
Proof.
  induction rows as [|r rows IH]; intros types b ND L; cbn [foldM].
  - exists types, b. split; [reflexivity|]. split; [reflexivity|]. split; [reflexivity|]. intros i. split; [intros []|auto].
  - inversion ND as [|a c Nr ND']; subst a c. destruct (L r (or_introl eq_refl)) as [Lt Lb].
    set (types1 := upd types r (neg_type (nth r types Equal))).
    set (b1 := upd b r (neg_b (nth r types Equal) (nthq b r))).
    assert (E : negate_row (types, b) r = Ok (types1, b1)).
    { unfold negate_row. rewrite (index_nth types r Equal) by assumption. cbn [bind]. rewrite (index_nth b r 0) by assumption. cbn [bind].
      unfold types1, b1, nthq. 
      assert (U : upd types r (nth r types Equal) = types).
      { clear. revert r. induction types; intros [|r]; cbn; f_equal; auto. }
      destruct (nth r types Equal) eqn:Et; cbn [neg_type neg_b]; rewrite ?set_index_upd by assumption; cbn [bind];
        rewrite ?set_index_upd by assumption; cbn [bind]; try reflexivity; now rewrite U. }
    rewrite E. cbn [bind]. destruct (IH types1 b1 ND') as (types' & b' & E' & L1 & L2 & H).
    { intros i Hi. unfold types1, b1. rewrite !upd_length. apply L. now right. }
    exists types', b'. split; [assumption|]. unfold types1, b1 in L1, L2. rewrite upd_length in L1. rewrite upd_length in L2.
    split; [assumption|]. split; [assumption|]. intros i. destruct (H i) as [HI HO]. unfold types1, b1 in HI, HO.
    assert (U : nthq (upd b r (neg_b (nth r types Equal) (nthq b r))) i = if Nat.eqb i r then neg_b (nth r types Equal) (nthq b r) else nthq b i) by (unfold nthq; now rewrite upd_nth).
    rewrite U, upd_nth in HI by assumption. rewrite U, upd_nth in HO by assumption. split.
    + intros [<-|Hi].
      * specialize (HO Nr). rewrite Nat.eqb_refl in HO. exact HO.
      * assert (Ni : i <> r) by congruence. specialize (HI Hi). rewrite (proj2 (Nat.eqb_neq i r)) in HI by assumption. exact HI.
    + intros Hi. assert (Ni : i <> r) by (intros ->; apply Hi; now left). assert (Hi' : ~ In i rows) by (intro; apply Hi; now right).
      specialize (HO Hi'). rewrite (proj2 (Nat.eqb_neq i r)) in HO by assumption. exact HO.
Qed.

Lemma rel_negated t b v : rel_holds (neg_type t) (neg_b t b) (- v) <-> rel_holds t b v.
Proof.
  destruct t as [|r| |]; cbn; split; intros H.
  - transitivity (- - v); [ring|]. rewrite H. ring.
  - subst v. ring.
  - destruct H. split; qlra.
  - destruct H. split; qlra.
  - qlra.
  - qlra.
  - qlra.
  - qlra.
Qed.

Lemma den_sign rows l i :
  den (map (fun '(k, v) => (k, if memb k rows then v * - (1) else v)) l) i = if memb i rows then - den l i else den l i.
Proof.
  induction l as [|[k v] l IH]; cbn [map den]; [destruct (memb i rows); ring|]. rewrite IH.
  destruct (Nat.eqb_spec i k) as [->|N]; destruct (memb _ rows); ring.
Qed.
Lemma fwf_sign rows lo m l : fwf lo m l -> fwf lo m (map (fun '(k, v) => (k, if memb k rows then v * - (1) else v)) l).
Proof.
  revert lo. induction l as [|[k v] l IH]; intros lo; cbn [map fwf]; [auto|]. intros (A & B & C). split; [assumption|].
  split; [|auto]. destruct (memb k rows); [|assumption]. apply Qc_mul_neq0; [assumption|]. intro; qlra.
Qed.

Lemma make_b_corr g : general_ok g -> exists g', make_b_non_negative g = Ok g' /\ general_ok g' /\ g_vars g' = g_vars g /\
  g_fixed g' = g_fixed g /\
  (forall i, (i < g_rows g')%nat -> 0 <= nthq (g_b g') i) /\ corr True g g' (fun x => x) (fun x => x).
Proof.
  intros P. unfold make_b_non_negative. set (rows := map fst _).
  assert (HR : forall i, In i rows <-> (i < g_rows g)%nat /\ nthq (g_b g) i < 0).
  { intros i. unfold rows. rewrite in_map_iff. split.
    - intros ([i' v] & E & H). cbn in E. subst i'. apply filter_In in H. destruct H as [H Hv]. apply In_number_from in H.
      rewrite Nat.sub_0_r in H. destruct H as [_ H]. qb. rewrite <- (gok_b _ P). split; [apply nth_error_Some; congruence|].
      unfold nthq. now rewrite (nth_error_nth _ _ 0 H).
    - intros [L H]. exists (i, nthq (g_b g) i). split; [reflexivity|]. apply filter_In. split; [|now apply qltb_true].
      apply In_number_from. rewrite Nat.sub_0_r. split; [lia|]. unfold nthq. apply nth_error_nth'. now rewrite (gok_b _ P). }
  assert (ND : NoDup rows).
  { unfold rows. apply NoDup_map_filter. rewrite number_from_fst. apply seq_NoDup. }
  destruct (negate_fold rows (g_types g) (g_b g) ND) as (types' & b' & E & L1 & L2 & H).
  { intros i Hi. apply HR in Hi. rewrite (gok_types _ P), (gok_b _ P). tauto. }
  rewrite E. cbn [bind fst snd]. set (g' := mk_general _ _ _ _ _ _ _ _ _).
  exists g'. split; [reflexivity|].
  assert (CO : forall i j, (j < nr_vars g)%nat -> coefficient g' i j = if memb i rows then - coefficient g i j else coefficient g i j).
  { intros i j Lj. unfold coefficient. cbn [g_cols g']. unfold change_row_signs.
    set (f := map (fun '(k, v) => (k, if memb k rows then v * - (1) else v))).
    rewrite (nth_indep _ [] (f [])) by (rewrite map_length, (gok_cols _ P); assumption). rewrite map_nth. unfold f. apply den_sign. }
  assert (RV : forall x i, row_value g' x i = if memb i rows then - row_value g x i else row_value g x i).
  { intros x i. unfold row_value. change (nr_vars g') with (nr_vars g).
    transitivity (sum (nr_vars g) (fun j => (if memb i rows then - coefficient g i j else coefficient g i j) * x j)).
    - apply sum_ext. intros j Lj. now rewrite CO.
    - destruct (memb i rows); [|reflexivity]. rewrite <- sum_opp. apply sum_ext. intros. ring. }
  assert (FE : forall x, gfeasible g' x <-> gfeasible g x).
  { intros x. unfold gfeasible. change (nr_vars g') with (nr_vars g). change (g_rows g') with (g_rows g).
    assert (R : forall i, rel_holds (row_type g' i) (nthq (g_b g') i) (row_value g' x i) <-> rel_holds (row_type g i) (nthq (g_b g) i) (row_value g x i)).
    { intros i. rewrite RV. unfold row_type. cbn [g_types g_b g']. destruct (memb i rows) eqn:M.
      - apply memb_In in M. destruct (proj1 (H i) M) as [-> ->]. apply rel_negated.
      - apply memb_false in M. destruct (proj2 (H i) M) as [-> ->]. reflexivity. }
    split; intros [A B]; (split; [|exact B]); intros i Li; apply R; now apply A. }
  split; [|split; [reflexivity|split; [reflexivity|split]]].
  - destruct P as [PC PF PT PB PS PR PD PA PSp PFr]. constructor; try assumption.
    + cbn [g_cols g']. unfold change_row_signs. now rewrite map_length.
    + cbn [g_types g']. now rewrite L1.
    + cbn [g_b g']. now rewrite L2.
    + intros j Lj. cbn [g_cols g_rows g']. unfold change_row_signs.
      set (f := map (fun '(k, v) => (k, if memb k rows then v * - (1) else v))).
      change (nr_vars g') with (nr_vars g) in Lj.
      rewrite (nth_indep _ [] (f [])) by (rewrite map_length, PC; assumption). rewrite map_nth. unfold f. apply fwf_sign. now apply PS.
    + intros i r Li. cbn [g_rows g'] in Li. unfold row_type. cbn [g_types g'].
      destruct (in_dec Nat.eq_dec i rows) as [I|I].
      * destruct (proj1 (H i) I) as [-> _]. intros Et. apply (PR i r Li). unfold row_type. destruct (nth i (g_types g) Equal); cbn in Et; congruence.
      * destruct (proj2 (H i) I) as [-> _]. now apply PR.
  - intros i Li. cbn [g_rows g'] in Li. cbn [g_b g']. destruct (in_dec Nat.eq_dec i rows) as [I|I].
    + destruct (proj1 (H i) I) as [_ ->]. apply HR in I. destruct I as [_ I].
      destruct (nth i (g_types g) Equal) as [|r| |] eqn:Et; cbn [neg_b]; try qlra.
      pose proof (gok_ranges _ P i r Li Et). qlra.
    + destruct (proj2 (H i) I) as [_ ->]. apply Qcnot_lt_le. intro C. apply I. apply HR. now split.
  - apply (corr_same g g' (fun i => i)); auto.
Qed.

(** ** Objective *)
Lemma min_facts g : let g' := make_minimization g in g_objective g' = Minimize /\
  nr_vars g' = nr_vars g /\ (forall j, v_lower (var g' j) = v_lower (var g j) /\ v_upper (var g' j) = v_upper (var g j)) /\
  g_fixed g' = g_fixed g /\ g_b g' = g_b g /\ g_rows g' = g_rows g /\
  (general_ok g -> general_ok g') /\ (forall x, gfeasible g' x <-> gfeasible g x) /\
  (forall x val, completed g' x val <-> completed g x val) /\ g_orig g' = g_orig g /\
  (forall x, gcost g' x = match g_objective g with Minimize => gcost g x | Maximize => g_fixed g + g_fixed g - gcost g x end).
Proof.
  intros g'. unfold g', make_minimization. destruct (g_objective g) eqn:Ed.
  { repeat (split; [tauto || reflexivity || auto|]). reflexivity. }
  set (h := mk_general _ _ _ _ _ _ _ _ _).
  assert (V : forall j, var h j = negate_cost (var g j) \/ (var h j = no_variable /\ var g j = no_variable)).
  { intros j. unfold var. cbn [g_vars h]. destruct (Nat.lt_ge_cases j (length (g_vars g))) as [L|L].
    - left. rewrite (nth_indep _ no_variable (negate_cost no_variable)) by now rewrite map_length. apply map_nth.
    - right. rewrite !nth_overflow by (rewrite ?map_length; lia). auto. }
  assert (N : nr_vars h = nr_vars g) by (unfold nr_vars; cbn [g_vars h]; apply map_length).
  assert (VL : forall j, v_lower (var h j) = v_lower (var g j)) by (intros j; destruct (V j) as [E|[E1 E2]]; [now rewrite E|now rewrite E1, E2]).
  assert (VU : forall j, v_upper (var h j) = v_upper (var g j)) by (intros j; destruct (V j) as [E|[E1 E2]]; [now rewrite E|now rewrite E1, E2]).
  assert (VF : forall j, v_flipped (var h j) = v_flipped (var g j)) by (intros j; destruct (V j) as [E|[E1 E2]]; [now rewrite E|now rewrite E1, E2]).
  assert (VS : forall j, v_shift (var h j) = v_shift (var g j)) by (intros j; destruct (V j) as [E|[E1 E2]]; [now rewrite E|now rewrite E1, E2]).
  assert (VC : forall j, v_cost (var h j) = - v_cost (var g j)) by (intros j; destruct (V j) as [E|[E1 E2]]; [rewrite E; cbn; ring|rewrite E1, E2; cbn; ring]).
  split; [reflexivity|]. split; [exact N|]. split; [auto|]. split; [reflexivity|]. split; [reflexivity|]. split; [reflexivity|].
  split; [|split; [|split; [|split; [reflexivity|]]]].
  - intros [PC PF PT PB PS PR PD PA PSp PFr]. constructor; try assumption; try (rewrite N; assumption).
    + intros j l u. rewrite N, VL, VU. apply PD.
    + intros j Lj. rewrite N in Lj. rewrite VL, VU, VF. now apply PFr.
  - intros x. unfold gfeasible. rewrite N. unfold in_bounds.
    assert (RV : forall i, row_value h x i = row_value g x i) by (intros i; unfold row_value; rewrite N; reflexivity).
    split; intros [A B]; split.
    + intros i Li. rewrite <- RV. exact (A i Li).
    + intros j Lj. rewrite <- VL, <- VU. now apply B.
    + intros i Li. rewrite RV. exact (A i Li).
    + intros j Lj. rewrite VL, VU. now apply B.
  - intros x val.
    assert (EV : forall e, entry_value h x val e = entry_value g x val e).
    { assert (O : forall j y, own_value (var h j) y = own_value (var g j) y) by (intros; now apply own_value_ext).
      intros [k|p q|[v|c l]]; cbn [entry_value]; rewrite ?O; reflexivity. }
    unfold completed. split; intros H o name e He; [rewrite <- EV|rewrite EV]; now apply (H o name).
  - intros x. unfold gcost. rewrite N. cbn [g_fixed h].
    rewrite (sum_ext _ _ (fun j => - (v_cost (var g j) * x j))) by (intros; rewrite VC; ring). rewrite sum_opp. ring.
Qed.

(** ** Grouping *)
Definition cnt (k : nat) (ts : list rel) : nat := length (filter (fun t => Nat.eqb (type_rank t) k) ts).
Definition count_of (c : counts) (k : nat) : nat :=
  match k with 0%nat => n_equal c | 1%nat => n_range c | 2%nat => n_less c | _ => n_greater c end.
Lemma rank_lt t : (type_rank t < 4)%nat. Proof. destruct t; cbn; lia. Qed.
Lemma cnt_cons k t ts : cnt k (t :: ts) = ((if Nat.eqb (type_rank t) k then 1 else 0) + cnt k ts)%nat.
Proof. unfold cnt. cbn [filter]. destruct (Nat.eqb (type_rank t) k); reflexivity. Qed.
Lemma bump_spec c t : bump c t = (count_of c (type_rank t),
  mk_counts (n_equal c + if Nat.eqb (type_rank t) 0 then 1 else 0) (n_range c + if Nat.eqb (type_rank t) 1 then 1 else 0)
            (n_less c + if Nat.eqb (type_rank t) 2 then 1 else 0) (n_greater c + if Nat.eqb (type_rank t) 3 then 1 else 0)).
Proof. destruct c, t; cbn; rewrite ?Nat.add_0_r, ?Nat.add_1_r; reflexivity. Qed.

Lemma number_types_spec ts : forall c ks c', number_types c ts = (ks, c') ->
  (forall k, (k < 4)%nat -> count_of c' k = (count_of c k + cnt k ts)%nat) /\ length ks = length ts /\
  forall i, (i < length ts)%nat -> nth i ks 0%nat = (count_of c (type_rank (nth i ts Equal)) + cnt (type_rank (nth i ts Equal)) (firstn i ts))%nat.
Proof.
  induction ts as [|t ts IH]; intros c ks c' E; cbn [number_types] in E.
  - injection E as <- <-. split; [|split; [reflexivity|cbn; lia]]. intros k _. unfold cnt. cbn. lia.
  - rewrite bump_spec in E. destruct (number_types _ ts) as [ks1 c1] eqn:E1. injection E as <- <-.
    destruct (IH _ _ _ E1) as (HC & HL & HN).
    assert (CB : forall k, (k < 4)%nat -> count_of (mk_counts (n_equal c + if Nat.eqb (type_rank t) 0 then 1 else 0) (n_range c + if Nat.eqb (type_rank t) 1 then 1 else 0)
            (n_less c + if Nat.eqb (type_rank t) 2 then 1 else 0) (n_greater c + if Nat.eqb (type_rank t) 3 then 1 else 0)) k =
            (count_of c k + if Nat.eqb (type_rank t) k then 1 else 0)%nat).
    { intros k Lk. destruct k as [|[|[|[|k]]]]; cbn [count_of n_equal n_range n_less n_greater]; try reflexivity. lia. }
    split; [|split].
    + intros k Lk. rewrite HC, CB, cnt_cons by assumption. lia.
    + cbn. now rewrite HL.
    + intros [|i] Li; cbn [nth firstn].
      * unfold cnt. cbn. lia.
      * cbn [length] in Li. rewrite HN by lia. rewrite CB by apply rank_lt. rewrite cnt_cons.
        rewrite (Nat.eqb_sym (type_rank t)). lia.
Qed.

(** where a constraint goes *)
Definition below (k : nat) (ts : list rel) : nat :=
  match k with 0%nat => 0 | 1%nat => cnt 0 ts | 2%nat => cnt 0 ts + cnt 1 ts | _ => cnt 0 ts + cnt 1 ts + cnt 2 ts end%nat.
Definition dst (ts : list rel) (i : nat) : nat :=
  (below (type_rank (nth i ts Equal)) ts + cnt (type_rank (nth i ts Equal)) (firstn i ts))%nat.

Lemma cnt_total ts : (cnt 0 ts + cnt 1 ts + cnt 2 ts + cnt 3 ts)%nat = length ts.
Proof. induction ts as [|t ts IH]; [reflexivity|]. rewrite !cnt_cons. cbn [length]. destruct t; cbn [type_rank Nat.eqb]; lia. Qed.
Lemma cnt_firstn ts : forall i, (i < length ts)%nat -> (cnt (type_rank (nth i ts Equal)) (firstn i ts) < cnt (type_rank (nth i ts Equal)) ts)%nat.
Proof.
  induction ts as [|t ts IH]; intros [|i] L; cbn [length nth firstn] in *; try lia.
  - rewrite cnt_cons, Nat.eqb_refl. unfold cnt at 1. cbn. lia.
  - rewrite !cnt_cons. specialize (IH i). lia.
Qed.
Lemma cnt_firstn_inj ts k : forall i i', (i < length ts)%nat -> (i' < length ts)%nat ->
  type_rank (nth i ts Equal) = k -> type_rank (nth i' ts Equal) = k -> cnt k (firstn i ts) = cnt k (firstn i' ts) -> i = i'.
Proof.
  induction ts as [|t ts IH]; intros [|i] [|i'] L L' R R' E; cbn [length nth firstn] in *; try lia.
  - rewrite cnt_cons in E. rewrite R, Nat.eqb_refl in E. unfold cnt at 1 in E. cbn in E. lia.
  - rewrite cnt_cons in E. rewrite R', Nat.eqb_refl in E. unfold cnt at 2 in E. cbn in E. lia.
  - f_equal. apply IH; try lia; try assumption. rewrite !cnt_cons in E. lia.
Qed.
Lemma cnt_find ts k : forall q, (q < cnt k ts)%nat -> exists i, (i < length ts)%nat /\ type_rank (nth i ts Equal) = k /\ cnt k (firstn i ts) = q.
Proof.
  induction ts as [|t ts IH]; intros q L; [unfold cnt in L; cbn in L; lia|]. rewrite cnt_cons in L.
  destruct (Nat.eqb_spec (type_rank t) k) as [E|N].
  - destruct q as [|q].
    + exists 0%nat. cbn. split; [lia|]. split; [assumption|reflexivity].
    + destruct (IH q) as (i & Li & R & C); [lia|]. exists (Datatypes.S i). cbn [length nth firstn]. split; [lia|]. split; [assumption|].
      rewrite cnt_cons, E, Nat.eqb_refl. lia.
  - destruct (IH q) as (i & Li & R & C); [lia|]. exists (Datatypes.S i). cbn [length nth firstn]. split; [lia|]. split; [assumption|].
    rewrite cnt_cons, (proj2 (Nat.eqb_neq _ _) N). lia.
Qed.

Lemma dst_lt ts i : (i < length ts)%nat -> (dst ts i < length ts)%nat.
Proof.
  intros L. unfold dst. pose proof (cnt_firstn ts i L) as H. rewrite <- (cnt_total ts). pose proof (rank_lt (nth i ts Equal)).
  destruct (type_rank (nth i ts Equal)) as [|[|[|[|k]]]]; cbn [below]; lia.
Qed.
Lemma dst_inj ts i i' : (i < length ts)%nat -> (i' < length ts)%nat -> dst ts i = dst ts i' -> i = i'.
Proof.
  intros L L' E. unfold dst in E. pose proof (cnt_firstn ts i L) as H. pose proof (cnt_firstn ts i' L') as H'.
  pose proof (rank_lt (nth i ts Equal)). pose proof (rank_lt (nth i' ts Equal)).
  assert (R : type_rank (nth i ts Equal) = type_rank (nth i' ts Equal)).
  { destruct (type_rank (nth i ts Equal)) as [|[|[|[|k]]]], (type_rank (nth i' ts Equal)) as [|[|[|[|k']]]]; cbn [below] in *; lia. }
  apply (cnt_firstn_inj ts _ i i' L L' eq_refl (eq_sym R)). rewrite R in E |- *. lia.
Qed.
Lemma dst_surj ts p : (p < length ts)%nat -> exists i, (i < length ts)%nat /\ dst ts i = p.
Proof.
  intros L. rewrite <- cnt_total in L.
  assert (S : exists k q, (k < 4)%nat /\ (q < cnt k ts)%nat /\ p = (below k ts + q)%nat).
  { destruct (Nat.lt_ge_cases p (cnt 0 ts)); [exists 0%nat, p; cbn; lia|].
    destruct (Nat.lt_ge_cases p (cnt 0 ts + cnt 1 ts)); [exists 1%nat, (p - cnt 0 ts)%nat; cbn; lia|].
    destruct (Nat.lt_ge_cases p (cnt 0 ts + cnt 1 ts + cnt 2 ts)); [exists 2%nat, (p - (cnt 0 ts + cnt 1 ts))%nat; cbn; lia|].
    exists 3%nat, (p - (cnt 0 ts + cnt 1 ts + cnt 2 ts))%nat; cbn; lia. }
  destruct S as (k & q & Lk & Lq & E). destruct (cnt_find ts k q Lq) as (i & Li & R & C). exists i. split; [assumption|].
  unfold dst. rewrite R, C. lia.
Qed.

(** the sorted list of types *)
Definition block (k : nat) (ts : list rel) : list rel := filter (fun t => Nat.eqb (type_rank t) k) ts.
Lemma insert_split {A} (key : A -> nat) x a b : (forall y, In y a -> (key y <= key x)%nat) -> (forall y, In y b -> (key x < key y)%nat) ->
  insert_by key x (a ++ b) = a ++ x :: b.
Proof.
  induction a as [|y a IH]; intros HA HB; cbn [app].
  - destruct b as [|z b]; cbn [insert_by]; [reflexivity|]. rewrite (proj2 (Nat.ltb_lt _ _)); [reflexivity|]. apply HB. now left.
  - cbn [insert_by]. rewrite (proj2 (Nat.ltb_ge _ _)); [|apply HA; now left]. rewrite IH; [reflexivity| |assumption].
    intros; apply HA; now right.
Qed.
Lemma block_rank k ts t : In t (block k ts) -> type_rank t = k.
Proof. unfold block. rewrite filter_In, Nat.eqb_eq. tauto. Qed.
Lemma block_snoc k ts t : block k (ts ++ [t]) = block k ts ++ if Nat.eqb (type_rank t) k then [t] else [].
Proof. unfold block. rewrite filter_app. cbn. destruct (Nat.eqb (type_rank t) k); reflexivity. Qed.
Lemma sort_types_blocks ts : sort_by type_rank ts = block 0 ts ++ block 1 ts ++ block 2 ts ++ block 3 ts.
Proof.
  unfold sort_by. induction ts as [|t ts IH] using rev_ind; [reflexivity|]. rewrite fold_left_app. cbn [fold_left]. rewrite IH.
  rewrite !block_snoc.
  assert (B : forall k y, In y (block k ts) -> type_rank y = k) by (intros; now apply (block_rank k ts)).
  destruct t as [|r| |]; cbn [type_rank Nat.eqb]; rewrite ?app_nil_r.
  - rewrite (insert_split type_rank Equal (block 0 ts) (block 1 ts ++ block 2 ts ++ block 3 ts)).
    + now rewrite <- app_assoc.
    + intros y H. apply B in H. cbn. lia.
    + intros y H. rewrite !in_app_iff in H. destruct H as [H|[H|H]]; apply B in H; cbn; lia.
  - rewrite (app_assoc (block 0 ts)). rewrite (insert_split type_rank (Range r) (block 0 ts ++ block 1 ts) (block 2 ts ++ block 3 ts)).
    + now rewrite <- !app_assoc.
    + intros y H. rewrite !in_app_iff in H. destruct H as [H|H]; apply B in H; cbn; lia.
    + intros y H. rewrite !in_app_iff in H. destruct H as [H|H]; apply B in H; cbn; lia.
  - rewrite (app_assoc (block 1 ts)), (app_assoc (block 0 ts)).
    rewrite (insert_split type_rank Less (block 0 ts ++ block 1 ts ++ block 2 ts) (block 3 ts)).
    + now rewrite <- !app_assoc.
    + intros y H. rewrite !in_app_iff in H. destruct H as [H|[H|H]]; apply B in H; cbn; lia.
    + intros y H. apply B in H; cbn; lia.
  - rewrite <- (app_nil_r (block 0 ts ++ _)). rewrite (insert_split type_rank Greater (block 0 ts ++ block 1 ts ++ block 2 ts ++ block 3 ts) []).
    + now rewrite <- !app_assoc.
    + intros y H. rewrite !in_app_iff in H. destruct H as [H|[H|[H|H]]]; apply B in H; cbn; lia.
    + intros y [].
Qed.
Lemma nth_block ts k : forall i, (i < length ts)%nat -> type_rank (nth i ts Equal) = k -> nth (cnt k (firstn i ts)) (block k ts) Equal = nth i ts Equal.
Proof.
  induction ts as [|t ts IH]; intros [|i] L R; cbn [length nth firstn] in *; try lia.
  - unfold block. cbn [filter]. rewrite R, Nat.eqb_refl. reflexivity.
  - rewrite cnt_cons. unfold block. cbn [filter]. destruct (Nat.eqb (type_rank t) k); cbn [Nat.add nth]; apply IH; try lia; assumption.
Qed.
Lemma block_length k ts : length (block k ts) = cnt k ts. Proof. reflexivity. Qed.
Lemma nth_sorted ts i : (i < length ts)%nat -> nth (dst ts i) (sort_by type_rank ts) Equal = nth i ts Equal.
Proof.
  intros L. rewrite sort_types_blocks. unfold dst. pose proof (cnt_firstn ts i L) as H. pose proof (rank_lt (nth i ts Equal)) as R.
  set (k := type_rank (nth i ts Equal)) in *. rewrite <- (nth_block ts k i L eq_refl). rewrite <- (block_length k ts) in H.
  set (q := cnt k (firstn i ts)) in *. clearbody k q.
  destruct k as [|[|[|[|k]]]]; cbn [below]; [| | | |lia].
  - now rewrite app_nth1 by (cbn; lia).
  - rewrite app_nth2 by (rewrite !block_length; lia). rewrite block_length. replace (cnt 0 ts + q - cnt 0 ts)%nat with q by lia.
    now rewrite app_nth1.
  - rewrite app_nth2 by (rewrite !block_length; lia). rewrite block_length.
    rewrite app_nth2 by (rewrite !block_length; lia). rewrite block_length.
    replace (cnt 0 ts + cnt 1 ts + q - cnt 0 ts - cnt 1 ts)%nat with q by lia. now rewrite app_nth1.
  - rewrite app_nth2 by (rewrite !block_length; lia). rewrite block_length.
    rewrite app_nth2 by (rewrite !block_length; lia). rewrite block_length.
    rewrite app_nth2 by (rewrite !block_length; lia). rewrite block_length.
    f_equal. lia.
Qed.
