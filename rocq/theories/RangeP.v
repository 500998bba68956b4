(** * Reducing column ranges: what the loops build *)
From Verif Require Export SpecRange WarmP MatrixP MatrixDataP PipelineP.
Local Open Scope Qc_scope.

(** ** The inverse of the chosen basis, abstractly: every row has a representative *)
Section Represented.
Variables (R : nat) (rep : nat -> nat) (sg : nat -> Qc).
Hypothesis rep_lt : forall i, (i < R)%nat -> (rep i < R)%nat.
Hypothesis rep_rep : forall i, (i < R)%nat -> rep (rep i) = rep i.
Hypothesis sg_sq : forall i, (i < R)%nat -> sg i * sg i = 1.
Definition rep_mat : mat := fun i k => delta (rep i) k + (if Nat.eqb (rep i) i then 0 else sg i * delta i k).
Definition rep_inv : mat := fun i k => if Nat.eqb (rep i) i then delta i k else sg i * (delta i k - delta (rep i) k).
Lemma rep_is_inverse : is_inverse R rep_inv rep_mat.
Proof.
  split; intros i j Li Lj; unfold mmul.
  - unfold rep_inv at 1. destruct (Nat.eqb_spec (rep i) i) as [E|E].
    + rewrite sum_delta_l by assumption. unfold rep_mat. rewrite E, Nat.eqb_refl. ring.
    + rewrite (sum_ext R _ (fun k => sg i * (delta i k * rep_mat k j) - sg i * (delta (rep i) k * rep_mat k j))) by (intros; ring).
      rewrite sum_minus, !sum_scal_l, !sum_delta_l by auto. unfold rep_mat. rewrite rep_rep, Nat.eqb_refl by assumption.
      rewrite (proj2 (Nat.eqb_neq _ _) E). pose proof (sg_sq i Li) as S. transitivity (sg i * sg i * delta i j); [ring|]. rewrite S. ring.
  - unfold rep_mat at 1.
    rewrite (sum_ext R _ (fun k => delta (rep i) k * rep_inv k j + (if Nat.eqb (rep i) i then 0 else sg i) * (delta i k * rep_inv k j))).
    2:{ intros k _. destruct (Nat.eqb (rep i) i); ring. }
    rewrite sum_plus, sum_scal_l, !sum_delta_l by auto. unfold rep_inv at 1. rewrite rep_rep, Nat.eqb_refl by assumption.
    unfold rep_inv. destruct (Nat.eqb_spec (rep i) i) as [E|E]; [rewrite E; ring|].
    pose proof (sg_sq i Li) as S. transitivity (delta (rep i) j + sg i * sg i * (delta i j - delta (rep i) j)); [ring|]. rewrite S. ring.
Qed.
Lemma rep_inv_value (b : vec) i : (i < R)%nat -> sum R (fun k => rep_inv i k * b k) = if Nat.eqb (rep i) i then b i else sg i * (b i - b (rep i)).
Proof.
  intros Li. unfold rep_inv. destruct (Nat.eqb (rep i) i); [now rewrite sum_delta_l|].
  rewrite (sum_ext R _ (fun k => sg i * (delta i k * b k) - sg i * (delta (rep i) k * b k))) by (intros; ring).
  rewrite sum_minus, !sum_scal_l, !sum_delta_l by auto. ring.
Qed.
End Represented.

(** ** Minima, maxima and the cells *)
Lemma present_In a j v : In v (present a j) <-> exists i, (i < height a)%nat /\ cell a i j = Some v.
Proof.
  unfold present. rewrite in_flat_map. split.
  - intros (i & Hi & Hv). apply In_range in Hi. exists i. split; [unfold height; lia|]. destruct (cell a i j); cbn in Hv; [|easy]. now destruct Hv as [->|[]].
  - intros (i & Li & E). exists i. split; [apply In_range; unfold height in *; lia|]. rewrite E. now left.
Qed.
Lemma fold_min_spec t : forall x, In (fold_left Z.min t x) (x :: t) /\ forall v, In v (x :: t) -> (fold_left Z.min t x <= v)%Z.
Proof.
  induction t as [|y t IH]; intros x; cbn [fold_left]; [split; [now left|intros v [->|[]]; lia]|].
  destruct (IH (Z.min x y)) as [A B]. split.
  - destruct A as [A|A]; [|right; now right]. rewrite <- A. destruct (Z.min_spec x y) as [[_ ->]|[_ ->]]; [now left|right; now left].
  - intros v [->|[->|Hv]].
    + specialize (B _ (or_introl eq_refl)). lia.
    + specialize (B _ (or_introl eq_refl)). lia.
    + apply B. now right.
Qed.
Lemma fold_max_spec t : forall x, In (fold_left Z.max t x) (x :: t) /\ forall v, In v (x :: t) -> (v <= fold_left Z.max t x)%Z.
Proof.
  induction t as [|y t IH]; intros x; cbn [fold_left]; [split; [now left|intros v [->|[]]; lia]|].
  destruct (IH (Z.max x y)) as [A B]. split.
  - destruct A as [A|A]; [|right; now right]. rewrite <- A. destruct (Z.max_spec x y) as [[_ ->]|[_ ->]]; [right; now left|now left].
  - intros v [->|[->|Hv]].
    + specialize (B _ (or_introl eq_refl)). lia.
    + specialize (B _ (or_introl eq_refl)). lia.
    + apply B. now right.
Qed.
(** [ext] holds a value of every column that relates to all others *)
Record extremes (a : input) (le : Z -> Z -> Prop) (ext : list Z) : Prop := mk_ext {
  ex_len : length ext = width a;
  ex_at : forall j, (j < width a)%nat -> exists i, (i < height a)%nat /\ cell a i j = Some (nth j ext 0%Z);
  ex_le : forall i j v, (i < height a)%nat -> (j < width a)%nat -> cell a i j = Some v -> le (nth j ext 0%Z) v
}.
Lemma extreme_spec a (le : Z -> Z -> Prop) f : input_ok a ->
  (forall l, l <> [] -> exists e, f l = Some e /\ In e l /\ forall v, In v l -> le e v) ->
  exists ext, column_extreme a (width a) f = Ok ext /\ extremes a le ext.
Proof.
  intros (_ & NE & _) Hf. unfold column_extreme.
  assert (T : forall j, (j < width a)%nat -> exists e, f (present a j) = Some e /\ In e (present a j) /\ forall v, In v (present a j) -> le e v).
  { intros j Lj. apply Hf. destruct (NE j Lj) as (i & v & Li & E). intros Z. assert (H : In v (present a j)) by (apply present_In; eauto). now rewrite Z in H. }
  destruct (mapM_total (fun j => ofopt (f (present a j))) (range 0 (width a))) as [ext E].
  { intros j Hj. apply In_range in Hj. destruct (T j) as (e & -> & _); [lia|]. now exists e. }
  exists ext. split; [exact E|]. destruct (mapM_ok _ _ _ E) as [L N].
  unfold range in L. rewrite seq_length, Nat.sub_0_r in L.
  assert (V : forall j, (j < width a)%nat -> In (nth j ext 0%Z) (present a j) /\ forall v, In v (present a j) -> le (nth j ext 0%Z) v).
  { intros j Lj. destruct (N j j) as (y & Ey & Ny).
    - unfold range. rewrite Nat.sub_0_r. rewrite (nth_error_nth' _ 0%nat) by now rewrite seq_length. now rewrite seq_nth.
    - rewrite (nth_error_nth _ _ 0%Z Ny). destruct (T j Lj) as (e & Ee & A & B). rewrite Ee in Ey. cbn in Ey. injection Ey as <-. now split. }
  split; [assumption| |].
  - intros j Lj. destruct (V j Lj) as [A _]. now apply present_In in A.
  - intros i j v Li Lj Ec. apply (V j Lj). apply present_In. eauto.
Qed.
Lemma lows_spec a : input_ok a -> exists ext, column_extreme a (width a) iter_min = Ok ext /\ extremes a Z.le ext.
Proof.
  intros O. apply extreme_spec; [assumption|]. intros [|x t] NE; [easy|]. cbn [iter_min]. eexists. split; [reflexivity|].
  destruct (fold_min_spec t x) as [A B]. now split.
Qed.
Lemma highs_spec a : input_ok a -> exists ext, column_extreme a (width a) iter_max = Ok ext /\ extremes a Z.ge ext.
Proof.
  intros O. apply extreme_spec; [assumption|]. intros [|x t] NE; [easy|]. cbn [iter_max]. eexists. split; [reflexivity|].
  destruct (fold_max_spec t x) as [A B]. split; [assumption|]. intros v Hv. apply B in Hv. lia.
Qed.
Lemma cells_In a i j v : In (i, j, v) (cells a (height a) (width a)) <-> (i < height a)%nat /\ (j < width a)%nat /\ cell a i j = Some v.
Proof.
  unfold cells. rewrite in_flat_map. split.
  - intros (j' & Hj & H). rewrite in_flat_map in H. destruct H as (i' & Hi & H). apply In_range in Hi, Hj.
    destruct (cell a i' j') eqn:E; cbn in H; [|easy]. destruct H as [H|[]]. injection H as -> -> ->. repeat split; [lia|lia|assumption].
  - intros (Li & Lj & E). exists j. split; [apply In_range; lia|]. rewrite in_flat_map. exists i. split; [apply In_range; lia|]. rewrite E. now left.
Qed.

(** ** The first index that satisfies a test *)
Fixpoint first_index {A} (f : A -> bool) (l : list A) : nat :=
  match l with [] => 0%nat | x :: t => if f x then 0%nat else S (first_index f t) end.
Lemma first_index_hit {A} (f : A -> bool) l d : (exists x, In x l /\ f x = true) ->
  (first_index f l < length l)%nat /\ f (nth (first_index f l) l d) = true.
Proof.
  induction l as [|x t IH]; intros (y & Hy & E); [destruct Hy|]. cbn [first_index length]. destruct (f x) eqn:F; [split; [lia|exact F]|].
  destruct IH as [A1 B1]; [exists y; destruct Hy as [->|Hy]; [congruence|now split]|]. split; [lia|exact B1].
Qed.
Lemma first_index_iff {A} (f : A -> bool) d l : forall k, (k < length l)%nat ->
  f (nth k l d) && negb (existsb f (firstn k l)) = Nat.eqb (first_index f l) k.
Proof.
  induction l as [|x t IH]; intros k L; [cbn in L; lia|]. cbn [first_index]. destruct k as [|k]; cbn [nth firstn existsb].
  - destruct (f x); reflexivity.
  - cbn [length] in L. specialize (IH k ltac:(lia)). destruct (f x); cbn [orb negb]; [now rewrite andb_false_r|]. now rewrite IH.
Qed.

(** ** The loops *)
Definition no_cell : nat * nat * Z := (0%nat, 0%nat, 0%Z).
Definition ccol (c : nat * nat * Z) : nat := snd (fst c).
Definition crow (c : nat * nat * Z) : nat := fst (fst c).
Definition cval (c : nat * nat * Z) : Z := snd c.
Definition hit (ext : list Z) (j : nat) (c : nat * nat * Z) : bool := Nat.eqb (ccol c) j && Z.eqb (cval c) (nth j ext 0%Z).
Definition crows (first : nat) (c : nat * nat * Z) : svec := [(crow c, 1); ((first + ccol c)%nat, 1)].
Fixpoint picks (ext : list Z) (first slacks : nat) (had : list bool) (cnt : nat) (l : list (nat * nat * Z)) : list nat :=
  match l with
  | [] => []
  | (i, j, v) :: t =>
      let pivot := Z.eqb v (nth j ext 0%Z) && negb (nth j had false) in
      (if pivot then (first + j)%nat else (slacks + cnt)%nat) :: picks ext first slacks (if pivot then upd had j true else had) (S cnt) t
  end.
Lemma index_nth {A} (l : list A) i d : (i < length l)%nat -> index l i = Ok (nth i l d).
Proof. intros L. unfold index. now rewrite (nth_error_nth' l d L). Qed.
Lemma loop_spec ext first slacks n : length ext = n -> forall l rows b basis had cnt, length had = n -> (forall c, In c l -> (ccol c < n)%nat) ->
  exists had', foldM (range_step ext first slacks) l (mk_building rows b basis had cnt) =
    Ok (mk_building (rows ++ map (crows first) l) (b ++ map (fun c => zq (cval c)) l) (basis ++ picks ext first slacks had cnt l) had' (cnt + length l)).
Proof.
  intros Le. induction l as [|[[i j] v] l IH]; intros rows b basis had cnt Lh H.
  - exists had. cbn. now rewrite !app_nil_r, Nat.add_0_r.
  - assert (Lj : (j < n)%nat) by (apply (H (i, j, v)); now left).
    cbn [foldM range_step bd_had bd_rows bd_b bd_basis bd_count]. rewrite (index_nth ext j 0%Z), (index_nth had j false) by lia. cbn [bind].
    set (pivot := Z.eqb v (nth j ext 0%Z) && negb (nth j had false)).
    destruct (IH (rows ++ [[(i, 1); ((first + j)%nat, 1)]]) (b ++ [zq v]) (basis ++ [if pivot then (first + j)%nat else (slacks + cnt)%nat])
                (if pivot then upd had j true else had) (S cnt)) as [had' E].
    + destruct pivot; [rewrite upd_length|]; assumption.
    + intros c Hc. apply H. now right.
    + exists had'. etransitivity; [exact E|]. cbn [map picks length]. fold pivot. rewrite <- !app_assoc. f_equal. f_equal. lia.
Qed.
Lemma nth_upd_true had j j' : (j < length had)%nat -> nth j' (upd had j true) false = Nat.eqb j' j || nth j' had false.
Proof.
  revert j j'. induction had as [|h had IH]; intros [|j] [|j'] L; cbn in L; try lia; cbn; try reflexivity. apply IH. lia.
Qed.
Lemma picks_spec ext first slacks n : length ext = n -> forall l had cnt, length had = n -> (forall c, In c l -> (ccol c < n)%nat) ->
  length (picks ext first slacks had cnt l) = length l /\
  forall k, (k < length l)%nat -> let j := ccol (nth k l no_cell) in
    nth k (picks ext first slacks had cnt l) 0%nat =
      if hit ext j (nth k l no_cell) && negb (existsb (hit ext j) (firstn k l)) && negb (nth j had false) then (first + j)%nat else (slacks + cnt + k)%nat.
Proof.
  intros Le. induction l as [|[[i j] v] l IH]; intros had cnt Lh H; [split; [reflexivity|]; intros k L; cbn in L; lia|].
  assert (Lj : (j < n)%nat) by (apply (H (i, j, v)); now left).
  cbn [picks length]. set (pivot := Z.eqb v (nth j ext 0%Z) && negb (nth j had false)).
  destruct (IH (if pivot then upd had j true else had) (S cnt)) as [A B].
  { destruct pivot; [rewrite upd_length|]; assumption. } { intros c Hc. apply H. now right. }
  split; [now rewrite A|]. intros [|k] L; cbn [nth firstn existsb].
  - unfold hit, ccol, cval. cbn [fst snd]. rewrite Nat.eqb_refl. cbn [negb andb]. rewrite andb_true_r. fold pivot. destruct pivot; lia.
  - rewrite B by lia. set (c := nth k l no_cell). set (j' := ccol c).
    replace (slacks + S cnt + k)%nat with (slacks + cnt + S k)%nat by lia.
    assert (Q : negb (nth j' (if pivot then upd had j true else had) false) && hit ext j' c = negb (hit ext j' (i, j, v)) && negb (nth j' had false) && hit ext j' c).
    { unfold hit at 2, ccol at 1, cval at 1. cbn [fst snd]. unfold pivot. destruct (Nat.eqb_spec j j') as [->|Nj].
      - destruct (Z.eqb v (nth j' ext 0%Z)); cbn [andb negb]; [|reflexivity].
        destruct (nth j' had false) eqn:Eh; cbn [negb andb]; [now rewrite Eh|]. rewrite nth_upd_true by lia. now rewrite Nat.eqb_refl.
      - cbn [andb negb]. destruct (Z.eqb v (nth j ext 0%Z) && negb (nth j had false)); [|reflexivity].
        rewrite nth_upd_true by lia. rewrite (proj2 (Nat.eqb_neq j' j)) by lia. reflexivity. }
    destruct (hit ext j' c); cbn [andb]; [|reflexivity]. rewrite !andb_true_r in Q. rewrite Q.
    destruct (existsb (hit ext j') (firstn k l)), (hit ext j' (i, j, v)), (nth j' had false); reflexivity.
Qed.
Lemma zq_le x y : (x <= y)%Z -> zq x <= zq y.
Proof. intros L. unfold zq, Qcle. cbn [this]. unfold Q2Qc. cbn [this]. rewrite !Qred_correct. now rewrite <- Zle_Qle. Qed.
Lemma zq_nonneg x : (0 <= x)%Z -> 0 <= zq x.
Proof. intros L. apply zq_le in L. exact L. Qed.
