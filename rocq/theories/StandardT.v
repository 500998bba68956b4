(** * Standardizing a program that has been standardized *)
From Coq Require Import Sorted.
From Verif Require Import SpecGeneral SparseP KindP FinishP StandardP StandardQ StandardR.
Local Open Scope Qc_scope.

Notation by_rank := (StronglySorted (fun s t => (type_rank s <= type_rank t)%nat)).
Lemma cnt_above k l : (forall t, In t l -> (k < type_rank t)%nat) -> cnt k l = 0%nat.
Proof.
  induction l as [|t l IH]; intros H; [reflexivity|]. rewrite cnt_cons, IH by (intros; apply H; now right).
  specialize (H t (or_introl eq_refl)). rewrite (proj2 (Nat.eqb_neq _ _)); lia.
Qed.
Lemma sorted_parts l : by_rank l -> forall i, (i < length l)%nat ->
  (forall j, (j < type_rank (nth i l Equal))%nat -> cnt j (firstn i l) = cnt j l) /\ (forall j, (type_rank (nth i l Equal) < j)%nat -> cnt j (firstn i l) = 0%nat).
Proof.
  induction 1 as [|t l S IH F]; intros i L; cbn [length] in L; [lia|]. rewrite Forall_forall in F. destruct i as [|i]; cbn [nth firstn].
  - split; [|reflexivity]. intros j J. symmetry. apply cnt_above. intros s [<-|I]; [assumption|]. specialize (F s I). lia.
  - destruct (IH i ltac:(lia)) as [A B]. split; intros j J; rewrite !cnt_cons.
    + now rewrite A.
    + rewrite B by assumption. specialize (F _ (nth_In l Equal (proj2 (Nat.succ_lt_mono _ _) L))). rewrite (proj2 (Nat.eqb_neq _ _)); lia.
Qed.
Lemma dst_sorted l i : by_rank l -> (i < length l)%nat -> dst l i = i.
Proof.
  intros S L. destruct (sorted_parts l S i L) as [A B]. pose proof (cnt_total (firstn i l)) as T. rewrite firstn_length_le in T by lia. unfold dst.
  pose proof (rank_lt (nth i l Equal)) as R. destruct (type_rank (nth i l Equal)) as [|[|[|[|k]]]]; [| | | |lia]; cbn [below].
  - rewrite (B 1%nat), (B 2%nat), (B 3%nat) in T by lia. lia.
  - rewrite (A 0%nat), (B 2%nat), (B 3%nat) in T by lia. lia.
  - rewrite (A 0%nat), (A 1%nat), (B 3%nat) in T by lia. lia.
  - rewrite (A 0%nat), (A 1%nat), (A 2%nat) in T by lia. lia.
Qed.
Lemma sort_same {A} (key : A -> nat) l : StronglySorted (fun a b => (key a <= key b)%nat) l -> sort_by key l = l.
Proof.
  intros S. unfold sort_by. enough (G : forall l acc, StronglySorted (fun a b => (key a <= key b)%nat) l -> (forall y x, In y acc -> In x l -> (key y <= key x)%nat) ->
    fold_left (fun acc x => insert_by key x acc) l acc = acc ++ l) by (apply (G l []); [assumption|intros ? ? []]).
  clear. induction l as [|x l IH]; intros acc S H; cbn [fold_left]; [now rewrite app_nil_r|]. apply StronglySorted_inv in S. destruct S as [S F]. rewrite Forall_forall in F.
  rewrite <- (app_nil_r acc) at 1. rewrite insert_split; [|intros y Y; apply H; [assumption|now left]|intros y []]. rewrite IH; [now rewrite <- app_assoc|assumption|].
  intros y z Y Z. apply in_app_iff in Y. destruct Y as [Y|[<-|[]]]; [apply H; [assumption|now right]|now apply F].
Qed.
Lemma fwf_sorted lo n l : fwf lo n l -> StronglySorted (fun a b => (fst a <= fst b)%nat) l.
Proof.
  revert lo. induction l as [|[i v] l IH]; intros lo W; [constructor|]. cbn in W. destruct W as (W1 & W2 & W3). constructor; [now apply (IH (S i))|]. apply Forall_forall. intros [k w] K. cbn.
  enough (S i <= k)%nat by lia. clear -W3 K. revert W3 K. generalize (S i). induction l as [|[k' w'] l IH]; intros lo W K; [destruct K|]. cbn in W. destruct W as (W1 & W2 & W3). destruct K as [[= -> ->]|K]; [lia|]. specialize (IH _ W3 K). lia.
Qed.

Lemma cut {A} (l : list A) a b : length l = (a + b)%nat -> exists l1 l2, l = l1 ++ l2 /\ length l1 = a /\ length l2 = b.
Proof. intros L. exists (firstn a l), (skipn a l). rewrite firstn_skipn, firstn_length, skipn_length. repeat split; lia. Qed.
Lemma cnt_app k l l' : cnt k (l ++ l') = (cnt k l + cnt k l')%nat.
Proof. unfold cnt. now rewrite filter_app, app_length. Qed.
Definition rank_is (k : nat) (l : list rel) : Prop := forall t, In t l -> type_rank t = k.
Lemma cnt_rank k k' l : rank_is k' l -> cnt k l = (if Nat.eqb k k' then length l else 0)%nat.
Proof.
  induction l as [|t l IH]; intros H; [now destruct (Nat.eqb k k')|]. rewrite cnt_cons, IH by (intros s S; apply H; now right). rewrite (H t (or_introl eq_refl)).
  rewrite Nat.eqb_sym. destruct (Nat.eqb k k'); reflexivity.
Qed.
Lemma rank_app k l l' : (forall t, In t l -> (type_rank t <= k)%nat) -> (forall t, In t l' -> (k <= type_rank t)%nat) -> by_rank l -> by_rank l' -> by_rank (l ++ l').
Proof.
  intros H H' S S'. induction S as [|t l S IH F]; cbn [app]; [assumption|]. constructor; [apply IH; intros s I; apply H; now right|]. apply Forall_app. split; [assumption|].
  apply Forall_forall. intros s I. specialize (H t (or_introl eq_refl)). specialize (H' s I). lia.
Qed.
Lemma rank_same k l : rank_is k l -> by_rank l.
Proof. induction l as [|t l IH]; intros H; constructor; [apply IH; intros s S; apply H; now right|]. apply Forall_forall. intros s S. rewrite (H t (or_introl eq_refl)), (H s (or_intror S)). lia. Qed.
Lemma map_same {A} (f : A -> A) l : (forall x, In x l -> f x = x) -> map f l = l.
Proof. intros H. rewrite <- (map_id l) at 2. now apply map_ext_in. Qed.
Lemma upd_same {A} (l : list A) i x : nth_error l i = Some x -> upd l i x = l.
Proof. revert i. induction l as [|y l IH]; intros [|i] H; cbn in *; try discriminate; [congruence|now rewrite IH]. Qed.
Lemma set_same {A} (l : list A) i x : nth_error l i = Some x -> set_index l i x = Ok l.
Proof. intros H. apply set_index_ok. split; [apply nth_error_Some; congruence|]. symmetry. now apply upd_same. Qed.
Lemma fold_same {A S} (f : S -> A -> res S) l s : (forall a, In a l -> f s a = Ok s) -> foldM f l s = Ok s.
Proof. induction l as [|a l IH]; intros H; cbn [foldM]; [reflexivity|]. rewrite H by now left. cbn [bind]. apply IH. intros b B. apply H. now right. Qed.

Section Again.
Variables (g : general) (c : counts).
Hypotheses (P : general_ok g) (SH : standard_shape g c).

Lemma types_blocks : exists e r l h, g_types g = e ++ r ++ l ++ h /\ length e = n_equal c /\ length r = n_range c /\ length l = n_less c /\ length h = n_greater c /\
  rank_is 0 e /\ rank_is 1 r /\ rank_is 2 l /\ rank_is 3 h.
Proof using P SH.
  pose proof (gok_types g P) as L. rewrite (ss_rows g c SH) in L. destruct SH as [_ _ _ _ TE TR TL TG]. unfold row_type in *.
  destruct (cut (g_types g) (n_equal c) (n_range c + (n_less c + n_greater c))) as (e & l1 & E & LE & L1); [lia|].
  destruct (cut l1 (n_range c) (n_less c + n_greater c)) as (r & l2 & E1 & LR & L2); [lia|].
  destruct (cut l2 (n_less c) (n_greater c)) as (l & h & E2 & LL & LH); [lia|]. subst l1 l2. exists e, r, l, h. rewrite E in *.
  repeat (split; [assumption || reflexivity|]).
  split; [|split; [|split]]; intros t I; apply (In_nth _ _ Equal) in I; destruct I as (i & I & <-).
  - specialize (TE i ltac:(lia)). rewrite app_nth1 in TE by assumption. now rewrite TE.
  - destruct (TR i ltac:(lia)) as (x & X). rewrite app_nth2, app_nth1 in X by lia. replace (n_equal c + i - length e)%nat with i in X by lia. now rewrite X.
  - specialize (TL i ltac:(lia)). rewrite app_nth2, app_nth2, app_nth1 in TL by lia. replace (n_equal c + n_range c + i - length e - length r)%nat with i in TL by lia. now rewrite TL.
  - specialize (TG i ltac:(lia)). rewrite !app_nth2 in TG by lia. replace (n_equal c + n_range c + n_less c + i - length e - length r - length l)%nat with i in TG by lia. now rewrite TG.
Qed.
Lemma types_sorted : by_rank (g_types g).
Proof using P SH.
  destruct types_blocks as (e & r & l & h & -> & _ & _ & _ & _ & RE & RR & RL & RH).
  apply (rank_app 0); [intros t T; now rewrite (RE t T)|lia|now apply (rank_same 0)|].
  apply (rank_app 1); [intros t T; now rewrite (RR t T)|intros t T; apply in_app_iff in T; destruct T as [T|T]; [rewrite (RL t T)|rewrite (RH t T)]; lia|now apply (rank_same 1)|].
  apply (rank_app 2); [intros t T; now rewrite (RL t T)|intros t T; rewrite (RH t T); lia|now apply (rank_same 2)|now apply (rank_same 3)].
Qed.
Lemma types_counted k : (k < 4)%nat -> cnt k (g_types g) = count_of c k.
Proof using P SH.
  intros K. destruct types_blocks as (e & r & l & h & -> & LE & LR & LL & LH & RE & RR & RL & RH).
  rewrite !cnt_app, (cnt_rank k _ _ RE), (cnt_rank k _ _ RR), (cnt_rank k _ _ RL), (cnt_rank k _ _ RH). destruct k as [|[|[|[|k]]]]; cbn; lia.
Qed.
Lemma split_none : split_free g = Ok g.
Proof using P SH.
  unfold split_free. assert (F : forall l, (forall j, In j l -> (j < nr_vars g)%nat) -> filterM (fun j => let* v := index (g_vars g) j in Ok (is_free v)) l = Ok []).
  { induction l as [|j l IH]; intros H; cbn [filterM]; [reflexivity|]. rewrite IH by (intros; apply H; now right). pose proof (H j (or_introl eq_refl)) as J. rewrite (index_nth (g_vars g) j no_variable) by exact J. cbn [bind].
    pose proof (ss_lower g c SH j J) as Z. unfold var in Z. unfold is_free at 1. rewrite Z. reflexivity. }
  rewrite F by (intros j J; apply In_range in J; rewrite (gok_cols g P) in J; lia). cbn [bind mapM foldM]. rewrite app_nil_r. now destruct g.
Qed.
Lemma transform_none : transform_variables g = Ok g.
Proof using P SH.
  unfold transform_variables. rewrite split_none. cbn [bind]. apply fold_same. intros j J. apply In_range in J. change (length (g_vars g)) with (nr_vars g) in J.
  pose proof (ss_lower g c SH j ltac:(lia)) as Z. unfold transform_one, flip_one, shift_one. rewrite (index_nth (g_vars g) j no_variable) by (unfold nr_vars in J; lia). cbn [bind]. unfold var in Z. rewrite Z. cbn [bind].
  rewrite (index_nth (g_vars g) j no_variable) by (unfold nr_vars in J; lia). cbn [bind]. rewrite Z.
  rewrite (index_nth (g_cols g) j []) by (rewrite (gok_cols g P); lia). cbn [bind]. rewrite fold_same.
  - cbn [bind]. rewrite set_same; cbn [bind].
    + replace (g_fixed g + 0 * v_cost (nth j (g_vars g) no_variable)) with (g_fixed g) by ring. now destruct g.
    + rewrite (nth_error_nth' _ no_variable) by (unfold nr_vars in J; lia). f_equal. destruct (nth j (g_vars g) no_variable) as [vi vc vl vu vs vf]. cbn in *. subst vl. f_equal; [destruct vu; [f_equal; ring|reflexivity]|ring].
  - intros [i v] I. unfold shift_b. pose proof (wfs_In_lt _ _ _ _ (gok_sorted g P j ltac:(lia)) I) as L. cbn [fst snd]. rewrite (index_nth (g_b g) i 0) by (rewrite (gok_b g P); lia). cbn [bind].
    apply set_same. rewrite (nth_error_nth' _ 0) by (rewrite (gok_b g P); lia). f_equal. ring.
Qed.
Lemma signs_none : make_b_non_negative g = Ok g.
Proof using P SH.
  unfold make_b_non_negative. assert (F : forall l k, (forall v, In v l -> 0 <= v) -> filter (fun '(_, v) => qltb v 0) (number_from k l) = []).
  { induction l as [|v l IH]; intros k H; cbn [number_from filter]; [reflexivity|]. rewrite IH by (intros; apply H; now right).
    destruct (qltb v 0) eqn:E; [|reflexivity]. apply qltb_true in E. specialize (H v (or_introl eq_refl)). qlra. }
  rewrite F; [|intros v V; apply (In_nth _ _ 0) in V; destruct V as (i & I & <-); rewrite (gok_b g P) in I; exact (ss_b g c SH i I)].
  cbn [map foldM bind fst snd]. f_equal. unfold change_row_signs. rewrite map_same; [now destruct g|]. intros col _. apply map_same. now intros [i v] _.
Qed.
Lemma reorder_none : reorder g = Ok (g, c).
Proof using P SH.
  unfold reorder. destruct (number_types (mk_counts 0 0 0 0) (g_types g)) as [ks c0] eqn:EN.
  destruct (number_types_spec _ _ _ _ EN) as (HC & _ & _).
  assert (EC : c0 = c).
  { pose proof (fun k K => eq_trans (HC k K) (f_equal (fun x => (count_of (mk_counts 0 0 0 0) k + x)%nat) (types_counted k K))) as X.
    pose proof (X 0%nat ltac:(lia)) as X0. pose proof (X 1%nat ltac:(lia)) as X1. pose proof (X 2%nat ltac:(lia)) as X2. pose proof (X 3%nat ltac:(lia)) as X3.
    destruct c0, c. cbn in *. congruence. }
  subst c0.
  assert (D : forall i, (i < g_rows g)%nat -> destination (g_types g) ks c i = Ok i).
  { intros i I. rewrite (destination_spec _ _ _ _ EN) by (rewrite (gok_types g P); exact I). rewrite dst_sorted; [reflexivity|exact types_sorted|rewrite (gok_types g P); exact I]. }
  destruct (scatter (fun i => i) (destination (g_types g) ks c) (g_b g) (range 0 (length (g_b g))) (repeat None (length (g_b g)))) as (nb & Enb & Lnb & HI & _).
  { apply seq_NoDup. }
  { intros i I. apply In_range in I. rewrite repeat_length. split; [apply D; rewrite (gok_b g P) in I; lia|lia]. }
  { intros i i' _ _ E. exact E. }
  rewrite Enb. cbn [bind]. rewrite repeat_length in Lnb.
  assert (B : mapM ofopt nb = Ok (g_b g)).
  { destruct (mapM_ofopt nb 0) as (b & Eb & Lb & Nb).
    { intros p Lp. rewrite HI by (apply In_range; lia). discriminate. }
    rewrite Eb. f_equal. apply (nth_ext _ _ 0 0); [lia|]. intros i I. rewrite Lb in I. specialize (Nb i I). rewrite HI in Nb by (apply In_range; lia). now injection Nb. }
  rewrite B. cbn [bind].
  rewrite (mapM_map _ (fun col => col)).
  - cbn [bind]. rewrite map_id. rewrite (sort_same type_rank _ types_sorted). now destruct g.
  - intros col I. apply In_nth with (d := []) in I. destruct I as (j & J & <-). rewrite (gok_cols g P) in J. pose proof (gok_sorted g P j J) as W.
    rewrite (mapM_map _ (fun e => e)); [cbn [bind]; rewrite map_id; f_equal; apply sort_same; exact (fwf_sorted _ _ _ W)|].
    intros [i v] I. rewrite D by exact (wfs_In_lt _ _ _ _ W I). reflexivity.
Qed.
Lemma standardize_same : standardize g = Ok (g, c).
Proof using P SH.
  unfold standardize. rewrite transform_none. cbn [bind]. rewrite signs_none. cbn [bind]. unfold make_minimization. rewrite (ss_objective g c SH). exact reorder_none.
Qed.
End Again.
Lemma standardize_twice g g' c : general_ok g -> standardize g = Ok (g', c) -> standardize g' = Ok (g', c).
Proof.
  intros P E. destruct (standardize_spec g P) as (g1 & c1 & F & G & E1 & P1 & S1 & _). rewrite E1 in E. injection E as <- <-. now apply standardize_same.
Qed.
