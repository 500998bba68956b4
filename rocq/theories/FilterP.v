(** * Filtered providers: proofs *)
From Verif Require Export Filter KeptP ArtP MatrixData MatrixDataP.

Lemma inc_nth : forall l lo s t, increasing_from lo l -> (s <= t)%nat -> (t < length l)%nat ->
  (lo + s <= nth s l 0 /\ nth s l 0 + (t - s) <= nth t l 0)%nat.
Proof.
  induction l as [|x l IH]; intros lo s t H L1 L2; [cbn in L2; lia|]. destruct H as [H1 H2]. cbn [length] in L2.
  destruct s as [|s], t as [|t]; try lia.
  - cbn [nth]. lia.
  - cbn [nth]. destruct (IH (S x) t t H2 ltac:(lia) ltac:(lia)). lia.
  - cbn [nth]. destruct (IH (S x) s t H2 ltac:(lia) ltac:(lia)). lia.
Qed.
Lemma count_below_app x a b : count_below x (a ++ b) = (count_below x a + count_below x b)%nat.
Proof. unfold count_below. now rewrite filter_app, app_length. Qed.
Lemma count_below_none x l : (forall r, In r l -> (x <= r)%nat) -> count_below x l = 0%nat.
Proof.
  unfold count_below. induction l as [|r l IH]; intros H; [reflexivity|]. cbn [filter].
  destruct (Nat.ltb_spec r x); [specialize (H r (or_introl eq_refl)); lia|]. apply IH. intros y Hy. apply H. now right.
Qed.

Lemma nth_skip {A} (d : A) : forall u l t, nth t (skipn u l) d = nth (u + t) l d.
Proof. induction u as [|u IH]; intros l t; [reflexivity|]. destruct l; [now destruct t|]. apply IH. Qed.
Lemma nth_first {A} (d : A) : forall u l t, (t < u)%nat -> nth t (firstn u l) d = nth t l d.
Proof. induction u as [|u IH]; intros l t L; [lia|]. destruct l; [reflexivity|]. destruct t; [reflexivity|]. cbn [nth firstn]. apply IH. lia. Qed.

Section Index.
Variables (n : nat) (rm : list nat).
Hypothesis INC : increasing_from 0 rm.
Hypothesis LT : forall r, In r rm -> (r < n)%nat.

(** the shift [u] found by the search is right *)
Lemma shift_right i u : (i < n - length rm)%nat -> (u <= length rm)%nat ->
  (forall t, (t < u)%nat -> (nth t rm 0 <= i + t)%nat) -> (forall t, (u <= t < length rm)%nat -> (i + t < nth t rm 0)%nat) ->
  (i + u)%nat = nth i (kept n rm) 0%nat.
Proof using INC LT.
  intros Li Lu A B. assert (ND := increasing_NoDup rm 0 INC).
  assert (NI : ~ In (i + u)%nat rm).
  { intros Hin. destruct (In_nth rm _ 0%nat Hin) as (t & Lt & E). destruct (Nat.lt_ge_cases t u) as [C|C].
    - specialize (A t C). lia.
    - specialize (B t (conj C Lt)). lia. }
  assert (CB : count_below (i + u) rm = u).
  { rewrite <- (firstn_skipn u rm), count_below_app, count_below_all, count_below_none.
    - rewrite firstn_length. lia.
    - intros r Hr. destruct (In_nth _ _ 0%nat Hr) as (t & Lt & E). rewrite skipn_length in Lt.
      rewrite nth_skip in E. specialize (B (u + t)%nat ltac:(lia)). lia.
    - intros r Hr. destruct (In_nth _ _ 0%nat Hr) as (t & Lt & E). rewrite firstn_length in Lt.
      rewrite nth_first in E by lia. specialize (A t ltac:(lia)). lia. }
  rewrite <- (nth_pos n rm (i + u) ND ltac:(lia) NI). f_equal. unfold pos. lia.
Qed.
Lemma search_loop_spec i : forall fuel lower upper, (lower < upper <= length rm)%nat -> (upper - lower <= S fuel)%nat ->
  (nth lower rm 0 <= i + lower)%nat -> ((upper < length rm)%nat -> (i + upper < nth upper rm 0)%nat) ->
  exists u, search_loop fuel rm i lower upper = Ok u /\ (0 < u <= length rm)%nat /\
    (nth (u - 1) rm 0 <= i + (u - 1))%nat /\ ((u < length rm)%nat -> (i + u < nth u rm 0)%nat).
Proof using INC.
  induction fuel as [|fuel IH]; intros lower upper L F A B; cbn [search_loop].
  - destruct (Nat.eqb_spec (upper - lower) 1); [|lia]. exists upper. replace (upper - 1)%nat with lower by lia. repeat split; auto; lia.
  - destruct (Nat.eqb_spec (upper - lower) 1) as [E|E].
    { exists upper. replace (upper - 1)%nat with lower by lia. repeat split; auto; lia. }
    set (mid := ((lower + upper) / 2)%nat).
    assert (M : (lower < mid < upper)%nat).
    { unfold mid. split; [apply (Nat.lt_le_trans _ (S lower)); [lia|]; apply Nat.div_le_lower_bound; lia|apply Nat.div_lt_upper_bound; lia]. }
    unfold index. rewrite (nth_error_nth' rm 0%nat) by lia. cbn [ofopt bind].
    destruct (inc_nth rm 0 mid mid INC ltac:(lia) ltac:(lia)) as [G _].
    destruct (Nat.ltb_spec (nth mid rm 0%nat) mid); [lia|].
    destruct (Nat.leb_spec (nth mid rm 0%nat - mid) i).
    + apply IH; try lia; assumption.
    + apply IH; try lia.
Qed.
End Index.
Lemma underlying_spec n rm i : increasing_from 0 rm -> (forall r, In r rm -> (r < n)%nat) ->
  (i < n - length rm)%nat -> underlying_index rm i = Ok (nth i (kept n rm) 0%nat).
Proof.
  intros INC LT Li. assert (SH := shift_right n rm INC LT i). assert (SL := search_loop_spec rm INC i (length rm) 0 (length rm)).
  assert (IN := fun s t => inc_nth rm 0 s t INC).
  unfold underlying_index. destruct rm as [|r [|r' l]].
  - f_equal. rewrite <- (SH 0%nat); cbn [length] in *; try lia; intros t Ht; lia.
  - f_equal. cbn [length] in *. destruct (Nat.ltb_spec i r) as [C|C].
    + rewrite <- (SH 0%nat); try lia; intros t Ht; try lia. replace t with 0%nat by lia. cbn [nth]. lia.
    + rewrite <- (SH 1%nat); try lia; intros t Ht; try lia. replace t with 0%nat by lia. cbn [nth]. lia.
  - set (rm := r :: r' :: l) in *. assert (R0 : nth 0 rm 0%nat = r) by reflexivity.
    assert (L2 : (2 <= length rm)%nat) by (cbn [rm length]; lia). clearbody rm.
    destruct (Nat.ltb_spec i r) as [C|C].
    + f_equal. rewrite <- (SH 0%nat); try lia. intros t Ht. destruct (IN 0%nat t ltac:(lia) ltac:(lia)). lia.
    + destruct SL as (u & Eu & Lu & A & B); try lia.
      rewrite Eu. cbn [bind]. f_equal. apply SH; try lia.
      * intros t Ht. destruct (IN t (u - 1)%nat ltac:(lia) ltac:(lia)). lia.
      * intros t Ht. destruct (IN u t ltac:(lia) ltac:(lia)). specialize (B ltac:(lia)). lia.
Qed.

(** ** Deleting a row *)
Lemma nsearch_absent : forall l x lo, increasing_from lo l -> ~ In x l ->
  exists k, nsearch x l = (false, k) /\ increasing_from (Nat.min lo x) (insert_at l k x) /\
    (forall y, In y (insert_at l k x) <-> y = x \/ In y l) /\ length (insert_at l k x) = S (length l).
Proof.
  induction l as [|y l IH]; intros x lo H NI; cbn [nsearch].
  - exists 0%nat. split; [reflexivity|]. cbn [insert_at increasing_from length]. split; [split; [lia|exact I]|]. split; [|reflexivity].
    intros z. cbn [In]. intuition.
  - destruct H as [H1 H2]. destruct (Nat.ltb_spec y x) as [C|C].
    + destruct (IH x (S y) H2) as (k & E & I1 & I2 & I3); [intros Hx; apply NI; now right|].
      rewrite E. exists (S k). split; [reflexivity|]. cbn [insert_at increasing_from length]. split; [split; [lia|]|].
      { apply (increasing_lower (Nat.min (S y) x)); [lia|assumption]. }
      split; [|now rewrite I3]. intros z. cbn [In]. rewrite I2. intuition.
    + destruct (Nat.eqb_spec y x) as [->|N]; [exfalso; apply NI; now left|]. exists 0%nat. split; [reflexivity|].
      cbn [insert_at]. destruct (y :: l) eqn:E; cbn [increasing_from length]; [discriminate|]. rewrite <- E. injection E as <- <-.
      split; [split; [lia|]; split; [lia|assumption]|]. split; [|reflexivity]. intros z. cbn [In]. intuition.
Qed.
Lemma remove_at_filter : forall (l : list nat) i, NoDup l -> (i < length l)%nat ->
  remove_at l i = filter (fun x => negb (Nat.eqb x (nth i l 0%nat))) l.
Proof.
  induction l as [|x l IH]; intros i ND L; [cbn in L; lia|]. inversion ND as [|? ? N1 ND']; subst. destruct i as [|i]; cbn [remove_at nth filter].
  - rewrite Nat.eqb_refl. cbn [negb]. symmetry. clear IH ND L.
    assert (H : forall y, In y l -> negb (Nat.eqb y x) = true).
    { intros y Hy. apply negb_true_iff, Nat.eqb_neq. congruence. }
    clear -H. induction l as [|y l IH]; [reflexivity|]. cbn [filter]. rewrite (H y (or_introl eq_refl)). f_equal. apply IH. intros z Hz. apply H. now right.
  - cbn [length] in L. rewrite (IH i ND') by lia. destruct (Nat.eqb_spec x (nth i l 0%nat)) as [E|E]; [|reflexivity].
    exfalso. apply N1. rewrite E. apply nth_In. lia.
Qed.
Lemma delete_row_spec n rm i : increasing_from 0 rm -> (forall r, In r rm -> (r < n)%nat) -> (i < n - length rm)%nat ->
  exists rm', delete_row false rm i = Ok rm' /\ increasing_from 0 rm' /\ (forall r, In r rm' -> (r < n)%nat) /\
    kept n rm' = remove_at (kept n rm) i /\ length rm' = S (length rm).
Proof.
  intros INC LT Li. assert (ND := increasing_NoDup rm 0 INC). assert (SR : sorted_rows n rm) by (split; assumption).
  assert (LK := kept_length n rm SR). set (r := nth i (kept n rm) 0%nat).
  assert (Hr : In r (kept n rm)) by (apply nth_In; lia). apply kept_In in Hr. destruct Hr as [Lr Nr].
  unfold delete_row. rewrite (underlying_spec n rm i INC LT Li). cbn [bind andb]. fold r.
  destruct (nsearch_absent rm r 0 INC Nr) as (k & E & I1 & I2 & I3). rewrite E. exists (insert_at rm k r). split; [reflexivity|].
  split; [exact (increasing_lower _ 0 _ ltac:(lia) I1)|]. split; [intros x Hx; apply I2 in Hx; destruct Hx as [->|Hx]; auto|].
  split; [|assumption]. rewrite remove_at_filter; [|apply kept_NoDup|lia]. fold r. unfold kept. clear -I2.
  induction (seq 0 n) as [|x l IH]; [reflexivity|]. cbn [filter].
  destruct (memb x (insert_at rm k r)) eqn:M1, (memb x rm) eqn:M2; cbn [negb filter].
  - apply IH.
  - apply memb_In, I2 in M1. apply memb_false in M2. destruct M1 as [->|M1]; [|tauto]. rewrite Nat.eqb_refl. cbn [negb]. apply IH.
  - apply memb_false in M1. apply memb_In in M2. exfalso. apply M1, I2. now right.
  - apply memb_false in M1. destruct (Nat.eqb_spec x r) as [->|N]; [exfalso; apply M1, I2; now left|]. cbn [negb]. f_equal. apply IH.
Qed.
(** with debug assertions every call panics *)
Lemma delete_row_debug n rm i : increasing_from 0 rm -> (forall r, In r rm -> (r < n)%nat) -> (i < n - length rm)%nat ->
  delete_row true rm i = Panic.
Proof.
  intros INC LT Li. assert (ND := increasing_NoDup rm 0 INC). assert (LK := kept_length n rm (conj ND LT)).
  assert (Hr : In (nth i (kept n rm) 0%nat) (kept n rm)) by (apply nth_In; lia). apply kept_In in Hr. destruct Hr as [Lr Nr].
  unfold delete_row. rewrite (underlying_spec n rm i INC LT Li). cbn [bind andb]. apply memb_false in Nr. now rewrite Nr.
Qed.

(** ** Rows, columns and pivots of a filtered provider *)
Lemma filtered_rhs p rm i : (forall r, In r rm -> (r < p_rows p)%nat) -> NoDup rm -> length (p_rhs p) = p_rows p ->
  (i < p_rows p - length rm)%nat -> nthq (p_rhs (remove_rows p rm)) i = nthq (p_rhs p) (nth i (kept (p_rows p) rm) 0%nat).
Proof.
  intros LT ND LB Li. cbn [remove_rows p_rhs]. unfold nthq. rewrite <- LB. apply nth_remove_indices. rewrite LB.
  now rewrite kept_length by (split; assumption).
Qed.
Lemma filtered_col p rm j i : (forall r, In r rm -> (r < p_rows p)%nat) -> NoDup rm -> wfs (p_rows p) (p_col p j) ->
  p_filtered p rm j = sremove (p_col p j) rm -> (i < p_rows p - length rm)%nat ->
  den (p_col (remove_rows p rm) j) i = den (p_col p j) (nth i (kept (p_rows p) rm) 0%nat).
Proof.
  intros LT ND W E Li. cbn [remove_rows p_col]. rewrite E. apply den_sremove; [assumption| |].
  - intros a b Hab. exact (wfs_In_lt _ _ _ _ W Hab).
  - now rewrite kept_length by (split; assumption).
Qed.
Lemma filtered_pivots_In pivots rm n r j : NoDup rm -> (forall x, In x rm -> (x < n)%nat) -> (r < n - length rm)%nat ->
  (forall r j, In (r, j) pivots -> (r < n)%nat) ->
  (In (r, j) (filtered_pivots pivots rm) <-> In (nth r (kept n rm) 0%nat, j) pivots).
Proof.
  intros ND LT Lr LP. assert (LK := kept_length n rm (conj ND LT)). unfold filtered_pivots. rewrite in_map_iff. split.
  - intros ([r0 j0] & E & H). injection E as <- <-. apply filter_In in H. destruct H as [H N]. apply negb_true_iff, memb_false in N.
    change (r0 - count_below r0 rm)%nat with (pos rm r0). rewrite nth_pos; [assumption|assumption|exact (LP _ _ H)|assumption].
  - intros H. exists (nth r (kept n rm) 0%nat, j). assert (K : In (nth r (kept n rm) 0%nat) (kept n rm)) by (apply nth_In; lia).
    apply kept_In in K. split.
    + change (nth r (kept n rm) 0%nat - count_below (nth r (kept n rm) 0%nat) rm)%nat with (pos rm (nth r (kept n rm) 0%nat)).
      rewrite pos_nth; [reflexivity|assumption|lia].
    + apply filter_In. split; [assumption|]. apply negb_true_iff, memb_false. tauto.
Qed.
Lemma filtered_pivots_sorted rm : NoDup rm -> forall pivots lo, increasing_from lo (map fst pivots) ->
  increasing_from (pos rm lo) (map fst (filtered_pivots pivots rm)).
Proof.
  intros ND. induction pivots as [|[r j] l IH]; intros lo H; [exact I|]. destruct H as [H1 H2]. cbn [fst] in *.
  unfold filtered_pivots. cbn [filter]. destruct (memb r rm) eqn:M; cbn [negb].
  - apply IH in H2. apply (increasing_lower (pos rm (S r))); [apply pos_mono; [assumption|lia]|exact H2].
  - cbn [map fst increasing_from]. apply memb_false in M. split; [apply pos_mono; assumption|].
    change (S (r - count_below r rm)) with (S (pos rm r)). rewrite <- pos_S by assumption. exact (IH _ H2).
Qed.
Lemma filtered_pivots_unit p rm r j : NoDup rm -> (forall x, In x rm -> (x < p_rows p)%nat) ->
  (forall r j, In (r, j) (match p_init p with PartialInit l => l | _ => [] end) -> (r < p_rows p)%nat /\ p_col p j = sbasis r /\
     p_filtered p rm j = sremove (p_col p j) rm) ->
  In (r, j) (filtered_pivots (match p_init p with PartialInit l => l | _ => [] end) rm) ->
  (r < p_rows p - length rm)%nat /\ p_col (remove_rows p rm) j = sbasis r.
Proof.
  intros ND LT H Hin. unfold filtered_pivots in Hin. apply in_map_iff in Hin. destruct Hin as ([r0 j0] & E & Hin). injection E as <- <-.
  apply filter_In in Hin. destruct Hin as [Hin N]. apply negb_true_iff in N. destruct (H _ _ Hin) as (Lr & C & F).
  split.
  - apply memb_false in N. pose proof (kept_length (p_rows p) rm (conj ND LT)) as LK. rewrite <- LK, <- (pos_kept rm (p_rows p)) by assumption.
    change (r0 - count_below r0 rm)%nat with (pos rm r0). pose proof (pos_mono rm (S r0) (p_rows p) ND ltac:(lia)) as Q.
    rewrite pos_S in Q by assumption. lia.
  - cbn [remove_rows p_col]. rewrite F, C. unfold sbasis. rewrite sremove_cons, N. reflexivity.
Qed.
(** bound rows come after the constraint rows *)
Lemma filtered_bound n m rm r : NoDup rm -> (forall x, In x rm -> (x < m)%nat) -> (m <= r < n)%nat ->
  exists r', filtered_bound_row rm (Some r) = Ok (Some r') /\ (r' < n - length rm)%nat /\ nth r' (kept n rm) 0%nat = r.
Proof.
  intros ND LT Lr. assert (CB : count_below r rm = length rm) by (apply count_below_all; intros x Hx; apply LT in Hx; lia).
  assert (Lm := sorted_rows_length m rm (conj ND LT)). unfold filtered_bound_row. destruct (Nat.ltb_spec r (length rm)); [lia|].
  exists (r - length rm)%nat. split; [reflexivity|]. split; [lia|]. rewrite <- CB. apply (nth_pos n rm r ND); [lia|].
  intros Hr. apply LT in Hr. lia.
Qed.

(** ** The columns of [MatrixData] and of networks *)
Lemma md_filter_equal d rm j : (forall r, In r rm -> (r < eq_end d)%nat) -> p_filtered (md_provider d) rm j = sremove (p_col (md_provider d) j) rm.
Proof.
  intros EQ. assert (ONE : forall e, (eq_end d <= fst e)%nat -> sremove [e] rm = [((fst e - length rm)%nat, snd e)]).
  { intros [i v] Li. cbn [fst snd] in *. rewrite sremove_cons. rewrite (proj2 (memb_false i rm)) by (intros Hi; apply EQ in Hi; lia).
    unfold pos. rewrite count_below_all; [reflexivity|]. intros r Hr. apply EQ in Hr. lia. }
  change (column_entries (into_filtered (md_column_at d j) rm) = sremove (column_entries (md_column_at d j)) rm).
  unfold md_column_at. destruct (classify d j) as [t k] eqn:E.
  destruct t; cbn [into_filtered column_entries fst snd].
  - destruct (bound_row_index d k) as [i|] eqn:Bi; cbn [option_map fst snd]; [|reflexivity].
    rewrite sremove_app, ONE; [reflexivity|]. cbn [fst]. unfold bound_row_index in Bi. destruct (classify d k) as [[] k']; try discriminate.
    + destruct (nth k' (md_to_bound d) None); [|discriminate]. injection Bi as <-. unfold lower_end, upper_end, range_end. lia.
    + injection Bi as <-. unfold bound_end, lower_end, upper_end, range_end. lia.
  - pose proof (sremove_app [((eq_end d + k)%nat, (1:Qc))] [((bound_end d + k)%nat, (1:Qc))] rm) as SA. cbn [app] in SA.
    rewrite SA, !ONE; [reflexivity| |]; cbn [fst]; unfold bound_end, lower_end, upper_end, range_end; lia.
  - rewrite ONE; [reflexivity|]. cbn [fst]. unfold range_end. lia.
  - rewrite ONE; [reflexivity|]. cbn [fst]. unfold upper_end, range_end. lia.
  - rewrite ONE; [reflexivity|]. cbn [fst]. unfold lower_end, upper_end, range_end. lia.
  - rewrite ONE; [reflexivity|]. cbn [fst]. unfold bound_end, lower_end, upper_end, range_end. lia.
Qed.
