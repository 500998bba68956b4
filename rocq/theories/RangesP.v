(** * Converting right-hand sides and ranges *)
From Coq Require Import Permutation.
From Verif Require Import SpecMps BoundsP PermP.
Local Open Scope Qc_scope.

Lemma insert_by_perm {A} (key : A -> nat) x : forall l, Permutation (insert_by key x l) (x :: l).
Proof.
  induction l as [|y l IH]; cbn [insert_by]; [constructor; constructor|]. destruct (Nat.ltb (key x) (key y)); [apply Permutation_refl|].
  apply Permutation_trans with (y :: x :: l); [now constructor|]. apply perm_swap.
Qed.
Lemma sort_by_perm {A} (key : A -> nat) l : Permutation (sort_by key l) l.
Proof.
  unfold sort_by. assert (G : forall l acc, Permutation (fold_left (fun acc x => insert_by key x acc) l acc) (acc ++ l)).
  { clear l. induction l as [|x l IH]; intros acc; cbn [fold_left]; [now rewrite app_nil_r|].
    apply Permutation_trans with (insert_by key x acc ++ l); [apply IH|]. apply Permutation_trans with ((x :: acc) ++ l).
    - apply Permutation_app_tail. apply insert_by_perm.
    - cbn. apply Permutation_middle. }
  apply (G l []).
Qed.
Lemma has_duplicate_false l : has_duplicate l = false <-> NoDup l.
Proof.
  induction l as [|a l IH]; cbn; [split; [constructor|reflexivity]|]. rewrite orb_false_iff, IH. split.
  - intros [H K]. constructor; [|assumption]. intros C. apply memb_In in C. congruence.
  - intros H. inversion H as [|? ? N D]; subst. split; [|assumption]. now apply memb_false.
Qed.
Lemma all_same_spec l : all_same l = true <-> forall a b, In a l -> In b l -> a = b.
Proof.
  destruct l as [|a l]; cbn; [split; [intros _ x y []|reflexivity]|]. rewrite forallb_forall. split.
  - intros H x y Hx Hy. assert (forall z, a = z \/ In z l -> a = z) as G by (intros z [E|E]; [assumption|]; apply qeqb_true, H, E). rewrite <- (G x Hx), <- (G y Hy). reflexivity.
  - intros H x Hx. apply qeqb_true. apply H; [now left|now right].
Qed.
Lemma ascending_sorted {A} (l : list (nat * A)) n : (forall i v, In (i, v) l -> (i < n)%nat) -> forall lo, increasing_from lo (map fst l) -> ascending lo n l.
Proof.
  induction l as [|[i v] l IH]; intros B lo; cbn; [trivial|]. intros [H K]. split; [split; [assumption|apply (B i v); now left]|]. apply IH; [|assumption].
  intros j w J. apply (B j w). now right.
Qed.
(** ** The ranges that are used *)
Lemma compute_ranges_outcome rhss ranges n : (forall i b, In (i, b) (ungroup rhss) -> (i < n)%nat) -> (forall i r, In (i, r) (ungroup ranges) -> (i < n)%nat) ->
  let good := NoDup (map fst (ungroup ranges)) /\ forall i r b b', In (i, r) (ungroup ranges) -> In (i, b) (ungroup rhss) -> In (i, b') (ungroup rhss) -> b = b' in
  (good /\ exists l, compute_ranges rhss ranges n = Got l /\ ascending 0 n l /\ forall e, In e l <-> In e (ungroup ranges)) \/
  (~ good /\ compute_ranges rhss ranges n = Rejected Inconsistent).
Proof.
  intros BR BB good. unfold compute_ranges.
  destruct ranges as [|g0 ranges]; [left; split; [split; [constructor|intros i r b b' []]|exists []; split; [reflexivity|split; [exact I|tauto]]]|].
  set (ranges' := g0 :: ranges) in *. clearbody ranges'. clear g0 ranges.
  assert (PM : Permutation (map fst (sort_by fst (ungroup ranges'))) (map fst (ungroup ranges'))) by apply Permutation_map, sort_by_perm.
  destruct (has_duplicate (map fst (sort_by fst (ungroup ranges')))) eqn:D.
  { right. split; [|reflexivity]. intros [ND _]. apply (Permutation_NoDup (Permutation_sym PM)) in ND. apply has_duplicate_false in ND. congruence. }
  apply has_duplicate_false in D. apply (Permutation_NoDup PM) in D.
  destruct (existsb (fun e => Nat.leb n (fst e)) (ungroup rhss)) eqn:X.
  { exfalso. apply existsb_exists in X. destruct X as ([i b] & H & L). cbn in L. apply Nat.leb_le in L. apply BR in H. lia. }
  destruct (existsb _ (sort_by fst (ungroup ranges'))) eqn:Y.
  - right. split; [|reflexivity]. intros [_ G]. apply existsb_exists in Y. destruct Y as ([i r] & H & E). cbn [fst] in E. apply negb_true_iff in E.
    assert (all_same (values_at i (ungroup rhss)) = true); [|congruence]. apply all_same_spec. intros a b Ha Hb. apply values_at_In in Ha, Hb. apply sort_by_In in H. now apply (G i r).
  - left. split.
    + split; [assumption|]. intros i r b b' H Hb Hb'. assert (AS : all_same (values_at i (ungroup rhss)) = true).
      { destruct (all_same (values_at i (ungroup rhss))) eqn:S; [reflexivity|]. rewrite <- Y. apply existsb_exists. exists (i, r). split; [now apply sort_by_In|]. cbn [fst]. now rewrite S. }
      rewrite all_same_spec in AS. apply AS; now apply values_at_In.
    + eexists. split; [reflexivity|]. split; [|apply sort_by_In]. apply ascending_sorted; [|now apply sort_by_increasing]. intros i r H. apply sort_by_In in H. now apply BB in H.
Qed.
(** ** The constraint types *)
Lemma types_from_spec : forall rows j ranges n, ascending j n ranges ->
  length (types_from j rows ranges) = length rows /\
  forall k row, nth_error rows k = Some row -> exists t, nth_error (types_from j rows ranges) k = Some t /\
    ((exists r, In ((j + k)%nat, r) ranges /\ t = if qzero r then Equal else Range r) \/ ((forall r, ~ In ((j + k)%nat, r) ranges) /\ t = plain (row_kind row))).
Proof.
  induction rows as [|row rows IH]; intros j ranges n A; cbn [types_from].
  - split; [reflexivity|]. intros [|k] row; discriminate.
  - assert (NB : forall l lo i r, @ascending Qc lo n l -> (i < lo)%nat -> ~ In (i, r) l).
    { induction l as [|[a b] l IHl]; intros lo i r; cbn; [intros _ _ []|]. intros [H K] L [E|E]; [injection E as -> _; lia|]. apply (IHl (S a) i r) in E; [assumption|assumption|lia]. }
    assert (P : exists o rest, next_if j ranges = (o, rest) /\ ascending (S j) n rest /\ (forall k r, (j < k)%nat -> (In (k, r) rest <-> In (k, r) ranges)) /\
      match o with Some r => In (j, r) ranges | None => forall r, ~ In (j, r) ranges end).
    { destruct ranges as [|[i v] ranges]; cbn [next_if].
      - exists None, []. repeat split; cbn; tauto.
      - destruct A as [L A]. destruct (Nat.eqb_spec i j) as [->|N].
        + exists (Some v), ranges. split; [reflexivity|]. split; [assumption|]. split; [|now left]. intros k r K. split; [now right|]. intros [E|E]; [injection E as -> _; lia|assumption].
        + exists None, ((i, v) :: ranges). split; [reflexivity|]. split; [cbn; split; [lia|assumption]|]. split; [tauto|]. intros r. apply (NB _ i); [cbn; split; [lia|assumption]|lia]. }
    destruct P as (o & rest & -> & AR & IR & O). destruct (IH (S j) rest n AR) as [LN HN]. split; [cbn; now rewrite LN|]. intros [|k] row'; cbn [nth_error].
    + intros E. injection E as <-. eexists. split; [reflexivity|]. rewrite Nat.add_0_r. destruct o as [r|]; [left; exists r; now split|right; now split].
    + intros E. destruct (HN k row' E) as (t & Ht & C). exists t. split; [assumption|]. replace (j + S k)%nat with (S j + k)%nat by lia.
      destruct C as [(r & H & ->)|[H ->]]; [left; exists r|right]; (split; [|reflexivity]); [|intros r K; apply (H r)]; apply IR; (lia || assumption).
Qed.
(** ** One row *)
Definition row_step (k : relation_kind) (st : option Qc * rel) (value : Qc) : out (option Qc * rel) :=
  let (current, t) := st in
  match current with
  | None =>
      match t with
      | Range r =>
          let size := if qneg r then - r else r in
          Got (Some (match k with KGreater => value + size | KLess => value | KEqual => if qneg r then value else value + size end), Range size)
      | _ => Got (Some value, t)
      end
  | Some current =>
      match k with
      | KEqual => if qeqb value current then Got st else Rejected Inconsistent
      | KGreater => Got (if qltb current value then Some value else Some current, t)
      | KLess => Got (if qltb value current then Some value else Some current, t)
      end
  end.
Definition row_get (st : list (option Qc) * list rel) (i : nat) : option (option Qc * rel) :=
  match nth_error (fst st) i, nth_error (snd st) i with Some o, Some t => Some (o, t) | _, _ => None end.
Section Rows.
Variable rows : list mrow.
Definition row_inv (st : list (option Qc) * list rel) : Prop := length (fst st) = length rows /\ length (snd st) = length rows.
Definition kind_at (i : nat) : relation_kind := row_kind (nth i rows (mk_mrow "" KEqual)).
Lemma b_step_none s i t : row_inv s -> row_get s i = None -> b_step rows s (i, t) = Crashed.
Proof.
  destruct s as [b types]. intros [L1 L2]. unfold row_get. cbn [fst snd] in *. intros H. unfold b_step, oindex. destruct (nth_error b i) as [o|] eqn:E; [|reflexivity]. exfalso.
  assert (K : nth_error b i <> None) by congruence. apply nth_error_Some in K. destruct (nth_error types i) eqn:F; [discriminate|]. apply nth_error_None in F. lia.
Qed.
Lemma b_step_some s i value a : row_inv s -> row_get s i = Some a ->
  match row_step (kind_at i) a value with
  | Got a' => exists s', b_step rows s (i, value) = Got s' /\ row_inv s' /\ forall k, row_get s' k = if Nat.eqb k i then Some a' else row_get s k
  | Rejected e => b_step rows s (i, value) = Rejected e
  | Crashed => b_step rows s (i, value) = Crashed
  end.
Proof.
  destruct s as [b types]. intros [L1 L2]. unfold row_get. cbn [fst snd] in *. destruct (nth_error b i) as [o|] eqn:Eb; [|discriminate]. destruct (nth_error types i) as [t|] eqn:Et; [|discriminate].
  intros E. injection E as <-. assert (Lb : (i < length b)%nat) by (apply nth_error_Some; congruence).
  assert (Er : nth_error rows i = Some (nth i rows (mk_mrow "" KEqual))) by (apply nth_error_nth'; lia).
  assert (Bb : (i <? length b)%nat = true) by (apply Nat.ltb_lt; lia). assert (Bt : (i <? length types)%nat = true) by (apply Nat.ltb_lt; lia).
  assert (G1 : forall x, exists s', Got (upd b i x, types) = Got s' /\ row_inv s' /\ forall k, row_get s' k = if Nat.eqb k i then Some (x, t) else row_get (b, types) k).
  { intros x. eexists. split; [reflexivity|]. split; [split; cbn; rewrite ?upd_length; lia|]. intros k. unfold row_get. cbn [fst snd]. rewrite upd_nth_error, Bb, andb_true_r.
    destruct (Nat.eqb_spec k i) as [->|]; [|reflexivity]. now rewrite Et. }
  assert (G2 : forall x y, exists s', Got (upd b i x, upd types i y) = Got s' /\ row_inv s' /\ forall k, row_get s' k = if Nat.eqb k i then Some (x, y) else row_get (b, types) k).
  { intros x y. eexists. split; [reflexivity|]. split; [split; cbn; rewrite ?upd_length; lia|]. intros k. unfold row_get. cbn [fst snd]. rewrite !upd_nth_error, Bb, Bt, !andb_true_r.
    destruct (Nat.eqb_spec k i) as [->|]; reflexivity. }
  assert (G3 : exists s', Got (b, types) = Got s' /\ row_inv s' /\ forall k, row_get s' k = if Nat.eqb k i then Some (o, t) else row_get (b, types) k).
  { eexists. split; [reflexivity|]. split; [now split|]. intros k. destruct (Nat.eqb_spec k i) as [->|]; [|reflexivity]. unfold row_get. cbn [fst snd]. now rewrite Eb, Et. }
  unfold b_step, oindex, row_step. rewrite Eb, Er. cbn [obind]. change (row_kind (nth i rows (mk_mrow "" KEqual))) with (kind_at i). destruct o as [cur|].
  - destruct (kind_at i).
    + destruct (qltb value cur); [apply G1|apply G3].
    + destruct (qeqb value cur); [apply G3|reflexivity].
    + destruct (qltb cur value); [apply G1|apply G3].
  - rewrite Et. cbn [obind]. destruct t; [apply G1|apply G2|apply G1|apply G1].
Qed.
(** rows without a range *)
Lemma row_fold_plain k t vs : match t with Range _ => False | _ => True end -> forall o,
  match foldO (row_step k) vs (o, t) with
  | Got (o', t') => t' = t /\ (o' = None <-> o = None /\ vs = []) /\
      (k = KEqual -> forall x, In x vs -> o' = Some x) /\ (forall x, o = Some x -> k = KEqual -> o' = Some x) /\
      (k = KLess -> smallest (fun y => o = Some y \/ In y vs) o') /\ (k = KGreater -> largest (fun y => o = Some y \/ In y vs) o')
  | Rejected e => e = Inconsistent /\ k = KEqual /\ exists x y, (o = Some x \/ In x vs) /\ In y vs /\ x <> y
  | Crashed => False
  end.
Proof.
  intros NR. induction vs as [|v vs IH]; intros o; cbn [foldO].
  - split; [reflexivity|]. split; [tauto|]. split; [intros _ x []|]. split; [tauto|].
    split; intros _; destruct o as [x|]; cbn; try (intros y [H|H]; [discriminate|destruct H]); (split; [now left|]; intros y [H|H]; [injection H as ->; apply Qcle_refl|destruct H]).
  - assert (ST : (exists o1, row_step k (o, t) v = Got (o1, t) /\ o1 <> None /\ (k = KEqual -> o1 = Some v /\ (o = None \/ o = Some v)) /\
        (k = KLess -> smallest (fun y => o = Some y \/ y = v) o1) /\ (k = KGreater -> largest (fun y => o = Some y \/ y = v) o1)) \/
        (k = KEqual /\ row_step k (o, t) v = Rejected Inconsistent /\ exists x, o = Some x /\ x <> v)).
    { destruct o as [x|]; cbn [row_step].
      - destruct k.
        + left. eexists. split; [reflexivity|]. split; [destruct (qltb v x); discriminate|]. split; [discriminate|]. split; [intros _|discriminate].
          destruct (qltb v x) eqn:Q; [apply qltb_true in Q|apply qltb_false in Q]; cbn.
          * split; [now right|]. intros y [E|E]; [injection E as <-; now apply Qclt_le_weak|subst; apply Qcle_refl].
          * split; [now left|]. intros y [E|E]; [injection E as <-; apply Qcle_refl|subst; qlra].
        + destruct (qeqb v x) eqn:Q; [apply qeqb_true in Q; subst; left|apply qeqb_false in Q; right].
          * eexists. split; [reflexivity|]. split; [discriminate|]. split; [intros _; split; [reflexivity|now right]|]. split; discriminate.
          * split; [reflexivity|]. split; [reflexivity|]. exists x. split; [reflexivity|congruence].
        + left. eexists. split; [reflexivity|]. split; [destruct (qltb x v); discriminate|]. split; [discriminate|]. split; [discriminate|intros _].
          destruct (qltb x v) eqn:Q; [apply qltb_true in Q|apply qltb_false in Q]; cbn.
          * split; [now right|]. intros y [E|E]; [injection E as <-; now apply Qclt_le_weak|subst; apply Qcle_refl].
          * split; [now left|]. intros y [E|E]; [injection E as <-; apply Qcle_refl|subst; qlra].
      - left. exists (Some v). assert (E : row_step k (None, t) v = Got (Some v, t)) by (destruct t; try reflexivity; destruct NR). split; [exact E|]. split; [discriminate|].
        split; [intros _; split; [reflexivity|now left]|]. split; intros _; cbn; (split; [now right|]; intros y [H|H]; [discriminate|subst; apply Qcle_refl]). }
    destruct ST as [(o1 & -> & N1 & E1 & S1 & L1)|(-> & -> & x & -> & Nx)]; cbn [obind].
    + specialize (IH o1). destruct (foldO (row_step k) vs (o1, t)) as [[o' t']|e|]; [| |assumption].
      * destruct IH as (-> & A & B & C & D & F). split; [reflexivity|]. split; [split; [intros H; apply A in H; tauto|intros [_ H]; discriminate]|]. split; [|split; [|split]].
        -- intros K x [<-|H]; [apply C; [now apply E1|assumption]|now apply B].
        -- intros x -> K. destruct (E1 K) as [-> [H|H]]; [discriminate|]. injection H as ->. now apply C.
        -- intros K. specialize (D K). specialize (S1 K). destruct o1 as [x1|]; [|now destruct N1]. destruct o' as [x'|]; cbn in *.
           ++ destruct D as [D1 D2], S1 as [T1 T2]. split.
              ** destruct D1 as [H|H]; [injection H as ->; destruct T1 as [T1|T1]; [now left|right; now left]|right; now right].
              ** intros y [H|[H|H]]; [apply Qcle_trans with x1; [now apply D2; left|apply T2; now left]|apply Qcle_trans with x1; [now apply D2; left|apply T2; now right]|apply D2; now right].
           ++ exfalso. apply (D x1). now left.
        -- intros K. specialize (F K). specialize (L1 K). destruct o1 as [x1|]; [|now destruct N1]. destruct o' as [x'|]; cbn in *.
           ++ destruct F as [D1 D2], L1 as [T1 T2]. split.
              ** destruct D1 as [H|H]; [injection H as ->; destruct T1 as [T1|T1]; [now left|right; now left]|right; now right].
              ** intros y [H|[H|H]]; [apply Qcle_trans with x1; [apply T2; now left|now apply D2; left]|apply Qcle_trans with x1; [apply T2; now right|now apply D2; left]|apply D2; now right].
           ++ exfalso. apply (F x1). now left.
      * destruct IH as (-> & K & x & y & Hx & Hy & N). split; [reflexivity|]. split; [assumption|]. destruct (E1 K) as [-> _]. destruct Hx as [Hx|Hx].
        -- injection Hx as <-. exists v, y. split; [right; now left|]. split; [now right|assumption].
        -- exists x, y. split; [right; now right|]. split; [now right|assumption].
    + split; [reflexivity|]. split; [reflexivity|]. exists x, v. split; [now left|]. split; [now left|assumption].
Qed.
(** rows with a range, all of whose right-hand sides are the same *)
Definition range_bound (k : relation_kind) (r v : Qc) : Qc :=
  match k with KGreater => v + qabs r | KLess => v | KEqual => if qneg r then v else v + qabs r end.
Lemma qabs_pos r : r <> 0 -> 0 < qabs r.
Proof.
  intros N. unfold qabs. destruct (qltb r 0) eqn:E; [apply qltb_true in E; qlra|apply qltb_false in E]. apply Qcle_lt_or_eq in E. destruct E as [E|E]; [assumption|congruence].
Qed.
Lemma row_fold_again k r v : r <> 0 -> forall vs, (forall x, In x vs -> x = v) ->
  foldO (row_step k) vs (Some (range_bound k r v), Range (qabs r)) =
    match vs with [] => Got (Some (range_bound k r v), Range (qabs r))
    | _ => match k with KEqual => if qneg r then Got (Some (range_bound k r v), Range (qabs r)) else Rejected Inconsistent | _ => Got (Some (range_bound k r v), Range (qabs r)) end end.
Proof.
  intros N. pose proof (qabs_pos r N) as P. induction vs as [|x vs IH]; intros H; cbn [foldO]; [reflexivity|].
  assert (x = v) by (apply H; now left). subst x. specialize (IH (fun y K => H y (or_intror K))).
  destruct k; cbn [row_step range_bound] in *.
  - assert (E : qltb v v = false) by (apply qltb_false; apply Qcle_refl). rewrite E. cbn [obind]. rewrite IH. now destruct vs.
  - destruct (qneg r).
    + assert (E : qeqb v v = true) by now apply qeqb_true. rewrite E. cbn [obind]. rewrite IH. now destruct vs.
    + assert (E : qeqb v (v + qabs r) = false) by (apply qeqb_false; intros C; qlra). now rewrite E.
  - assert (E : qltb (v + qabs r) v = false) by (apply qltb_false; qlra). rewrite E. cbn [obind]. rewrite IH. now destruct vs.
Qed.
Lemma row_fold_range k r v vs : r <> 0 -> In v vs -> (forall x, In x vs -> x = v) ->
  foldO (row_step k) vs (None, Range r) =
    match vs, k with _ :: _ :: _, KEqual => if qneg r then Got (Some (range_bound k r v), Range (qabs r)) else Rejected Inconsistent
    | _, _ => Got (Some (range_bound k r v), Range (qabs r)) end.
Proof.
  intros N I H. destruct vs as [|x vs]; [destruct I|]. assert (x = v) by (apply H; now left). subst x. cbn [foldO].
  assert (E : row_step k (None, Range r) v = Got (Some (range_bound k r v), Range (qabs r))) by (destruct k; reflexivity). rewrite E. cbn [obind].
  rewrite (row_fold_again k r v N vs) by (intros y K; apply H; now right). destruct vs; [reflexivity|]. destruct k; reflexivity.
Qed.
(** ** All rows *)
Variables rhss ranges : list (group Qc).
Hypothesis rhs_in : forall i b, In (i, b) (ungroup rhss) -> (i < length rows)%nat.
Hypothesis range_in : forall i r, In (i, r) (ungroup ranges) -> (i < length rows)%nat.
Definition rows_good : Prop :=
  NoDup (map fst (ungroup ranges)) /\
  (forall i r b b', In (i, r) (ungroup ranges) -> In (i, b) (ungroup rhss) -> In (i, b') (ungroup rhss) -> b = b') /\
  (forall i b b', kind_at i = KEqual -> In (i, b) (ungroup rhss) -> In (i, b') (ungroup rhss) -> b = b') /\
  (forall i r, kind_at i = KEqual -> In (i, r) (ungroup ranges) -> 0 < r -> (length (values_at i (ungroup rhss)) <= 1)%nat).
(** what one row becomes *)
Definition row_result (i : nat) (t : rel) (b : Qc) : Prop :=
  (* no range *)
  ((forall r, ~ In (i, r) (ungroup ranges)) /\ t = plain (kind_at i) /\
     ((values_at i (ungroup rhss) = [] /\ b = 0) \/
      (kind_at i = KEqual /\ forall x, In x (values_at i (ungroup rhss)) -> b = x) /\ values_at i (ungroup rhss) <> [] \/
      (kind_at i = KLess /\ smallest (fun y => In y (values_at i (ungroup rhss))) (Some b)) \/
      (kind_at i = KGreater /\ largest (fun y => In y (values_at i (ungroup rhss))) (Some b)))) \/
  (* a range *)
  (exists r, In (i, r) (ungroup ranges) /\
     ((values_at i (ungroup rhss) = [] /\ b = 0 /\ t = if qzero r then Equal else Range r) \/
      (r = 0 /\ t = Equal /\ values_at i (ungroup rhss) <> [] /\ forall x, In x (values_at i (ungroup rhss)) -> b = x) \/
      (r <> 0 /\ t = Range (qabs r) /\ values_at i (ungroup rhss) <> [] /\ forall x, In x (values_at i (ungroup rhss)) -> b = range_bound (kind_at i) r x))).
Lemma row_outcome i t : (forall r b b', In (i, r) (ungroup ranges) -> In (i, b) (ungroup rhss) -> In (i, b') (ungroup rhss) -> b = b') ->
  ((exists r, In (i, r) (ungroup ranges) /\ t = if qzero r then Equal else Range r) \/ ((forall r, ~ In (i, r) (ungroup ranges)) /\ t = plain (kind_at i))) ->
  match foldO (row_step (kind_at i)) (values_at i (ungroup rhss)) (None, t) with
  | Got (o, t') => row_result i t' (match o with Some v => v | None => 0 end) /\ 
      (kind_at i = KEqual -> forall b b', In (i, b) (ungroup rhss) -> In (i, b') (ungroup rhss) -> b = b') /\
      (kind_at i = KEqual -> forall r, t = Range r -> 0 < r -> (length (values_at i (ungroup rhss)) <= 1)%nat)
  | Rejected e => e = Inconsistent /\ kind_at i = KEqual /\
      ((exists b b', In (i, b) (ungroup rhss) /\ In (i, b') (ungroup rhss) /\ b <> b') \/
       exists r, In (i, r) (ungroup ranges) /\ 0 < r /\ (1 < length (values_at i (ungroup rhss)))%nat)
  | Crashed => False
  end.
Proof.
  intros SAME T. remember (values_at i (ungroup rhss)) as vs eqn:EV.
  assert (IV : forall x, In x vs <-> In (i, x) (ungroup rhss)) by (intros x; subst vs; apply values_at_In).
  assert (PL : match t with Range _ => False | _ => True end -> (forall r, t = Range r -> False)) by (intros H r ->; exact H).
  assert (CASE : (match t with Range _ => False | _ => True end) \/ exists r, t = Range r /\ r <> 0 /\ In (i, r) (ungroup ranges)).
  { destruct T as [(r & H & ->)|[_ ->]]; [|left; destruct (kind_at i); exact I]. destruct (qzero r) eqn:Z; [now left|]. right. exists r. repeat split; [|assumption].
    intros ->. discriminate. }
  destruct CASE as [NR|(r & -> & Nr & Hr)].
  - pose proof (row_fold_plain (kind_at i) t vs NR None) as P. destruct (foldO _ vs (None, t)) as [[o t']|e|]; [| |assumption].
    + destruct P as (-> & A & B & _ & D & F). split; [|split].
      * unfold row_result. rewrite <- EV. destruct T as [(r & H & Et)|[H Et]].
        -- right. exists r. split; [assumption|]. destruct (qzero r) eqn:Z; [|subst t; destruct NR]. assert (r = 0) by now apply qeqb_true. subst r.
           destruct vs as [|v vs']; [left; destruct o as [x|]; [|now repeat split]; pose proof (proj2 A (conj eq_refl eq_refl)); discriminate|]. right. left.
           split; [reflexivity|]. split; [assumption|]. split; [discriminate|]. intros x Hx.
           assert (OX : o = Some x).
           { destruct (kind_at i) eqn:K; [specialize (D eq_refl)|now apply B|specialize (F eq_refl)]; destruct o as [y|]; cbn in *.
             - destruct D as [[D|D] _]; [discriminate|]. f_equal. apply (SAME 0); [assumption| |]; now apply IV.
             - destruct (D v). right. now left.
             - destruct F as [[F|F] _]; [discriminate|]. f_equal. apply (SAME 0); [assumption| |]; now apply IV.
             - destruct (F v). right. now left. }
           now rewrite OX.
        -- left. split; [assumption|]. split; [assumption|]. destruct vs as [|v vs']; [left; split; [reflexivity|]; destruct o as [x|]; [|reflexivity]; pose proof (proj2 A (conj eq_refl eq_refl)); discriminate|].
           right. destruct (kind_at i) eqn:K; [right; left; split; [reflexivity|]; specialize (D eq_refl)|left; split; [split; [reflexivity|]|discriminate]|right; right; split; [reflexivity|]; specialize (F eq_refl)].
           ++ destruct o as [y|]; cbn in *; [|destruct (D v); right; now left]. destruct D as [[D|D] E]; [discriminate|]. split; [assumption|]. intros z Hz. apply E. now right.
           ++ intros x Hx. now rewrite (B eq_refl x Hx).
           ++ destruct o as [y|]; cbn in *; [|destruct (F v); right; now left]. destruct F as [[F|F] E]; [discriminate|]. split; [assumption|]. intros z Hz. apply E. now right.
      * intros K b b' Hb Hb'. apply IV in Hb, Hb'. pose proof (B K b Hb). pose proof (B K b' Hb'). congruence.
      * intros _ r Er. now apply PL in Er.
    + destruct P as (-> & K & x & y & [Hx|Hx] & Hy & N); [discriminate|]. split; [reflexivity|]. split; [assumption|]. left. exists x, y. split; [now apply IV|]. split; [now apply IV|assumption].
  - destruct vs as [|v vs']; cbn [foldO].
    + split; [|split].
      * unfold row_result. rewrite <- EV. right. exists r. split; [assumption|]. left. repeat split. destruct (qzero r) eqn:Z; [apply qeqb_true in Z; congruence|reflexivity].
      * intros _ b b' Hb. apply IV in Hb. destruct Hb.
      * intros _ r' _ _. cbn. lia.
    + change (let~ s := row_step (kind_at i) (None, Range r) v in foldO (row_step (kind_at i)) vs' s) with (foldO (row_step (kind_at i)) (v :: vs') (None, Range r)).
      assert (AS : forall x, In x (v :: vs') -> x = v) by (intros x Hx; apply (SAME r); [assumption|now apply IV|apply IV; now left]).
      rewrite (row_fold_range (kind_at i) r v) by (assumption || now left).
      assert (OK : row_result i (Range (qabs r)) (range_bound (kind_at i) r v) /\ (kind_at i = KEqual -> forall b b', In (i, b) (ungroup rhss) -> In (i, b') (ungroup rhss) -> b = b')).
      { split.
        - unfold row_result. rewrite <- EV. right. exists r. split; [assumption|]. right. right. repeat split; try assumption; [discriminate|]. intros x Hx. now rewrite (AS x Hx).
        - intros _ b b' Hb Hb'. now apply (SAME r). }
      destruct vs' as [|v2 vs'].
      * split; [apply OK|]. split; [apply OK|]. intros _ r' _ _. cbn. lia.
      * destruct (kind_at i) eqn:K; [split; [apply OK|split; [discriminate|discriminate]]| |split; [apply OK|split; [discriminate|discriminate]]].
        destruct (qneg r) eqn:Z.
        -- split; [apply OK|]. split; [apply OK|]. intros _ r' Er Pr. injection Er as <-. unfold qneg in Z. apply qltb_true in Z. exfalso. qlra.
        -- split; [reflexivity|]. split; [reflexivity|]. right. exists r. split; [assumption|]. split; [|cbn; lia]. unfold qneg in Z. apply qltb_false in Z.
           apply Qcle_lt_or_eq in Z. destruct Z as [Z|Z]; [assumption|congruence].
Qed.
End Rows.
