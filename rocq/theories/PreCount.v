(** * Presolving: the counters of entries are exact *)
From Verif Require Import SpecGeneral SparseP KindP InitP.
From Verif Require Export Presolve.

(** ** Outcomes of a presolve computation *)
Definition pspec {A} (x : pr A) (Q : A -> Prop) (V : verdict -> Prop) (N : Prop) : Prop :=
  match x with Go a => Q a | Stop v => V v | PPanic => N | PFuel => False end.
Lemma pspec_bind {A B} (x : pr A) (f : A -> pr B) Q R V N :
  pspec x Q V N -> (forall a, Q a -> pspec (f a) R V N) -> pspec (pbind x f) R V N.
Proof. destruct x; cbn; auto; contradiction. Qed.
Lemma pspec_impl {A} (x : pr A) (Q Q' : A -> Prop) (V V' : verdict -> Prop) (N N' : Prop) :
  pspec x Q V N -> (forall a, Q a -> Q' a) -> (forall v, V v -> V' v) -> (N -> N') -> pspec x Q' V' N'.
Proof. destruct x; cbn; auto. Qed.
Lemma pspec_fold {A S} (f : S -> A -> pr S) (I : list A -> list A -> S -> Prop) V N : forall l done s,
  (forall done a todo s, I done (a :: todo) s -> pspec (f s a) (I (done ++ [a]) todo) V N) ->
  I done l s -> pspec (foldP f l s) (I (done ++ l) []) V N.
Proof.
  induction l as [|a l IH]; intros done s H H0; cbn [foldP].
  - cbn. now rewrite app_nil_r.
  - apply (pspec_bind _ _ (I (done ++ [a]) l)); [now apply H|]. intros s' H'.
    replace (done ++ a :: l) with ((done ++ [a]) ++ l) by now rewrite <- app_assoc. now apply IH.
Qed.
Lemma pspec_unwrap {A} (x : option A) (Q : A -> Prop) V (N : Prop) :
  (forall a, x = Some a -> Q a) -> (x = None -> N) -> pspec (unwrap x) Q V N.
Proof. destruct x; cbn; auto. Qed.
Lemma pbind_go {A B} (x : pr A) (f : A -> pr B) b : pbind x f = Go b <-> exists a, x = Go a /\ f a = Go b.
Proof.
  destruct x; cbn; split; intros H; try discriminate; try (destruct H as (? & E & ?); discriminate).
  - now exists a.
  - destruct H as (? & E & ?). now injection E as ->.
Qed.
Lemma foldP_app {A S} (f : S -> A -> pr S) : forall l1 l2 s, foldP f (l1 ++ l2) s = let+ s' := foldP f l1 s in foldP f l2 s'.
Proof. induction l1 as [|a l1 IH]; intros l2 s; cbn; [reflexivity|]. destruct (f s a); cbn; auto. Qed.
Lemma foldP_ext {A S} (f h : S -> A -> pr S) l : (forall s a, In a l -> f s a = h s a) -> forall s, foldP f l s = foldP h l s.
Proof.
  induction l as [|a l IH]; intros H s; cbn; [reflexivity|]. rewrite H by now left. destruct (h s a); cbn; auto.
  apply IH. intros; apply H; now right.
Qed.

(** ** Counting in a bipartite graph *)
Definition alive (f : nat -> nat) (l : list nat) : list nat := filter (fun k => negb (Nat.eqb (f k) 0)) l.
Lemma alive_In f l k : In k (alive f l) <-> In k l /\ f k <> 0%nat.
Proof. unfold alive. rewrite filter_In, negb_true_iff, Nat.eqb_neq. reflexivity. Qed.
Lemma alive_NoDup f l : NoDup l -> NoDup (alive f l).
Proof. apply NoDup_filter. Qed.
Lemma two_length {A} (l : list A) a b : NoDup l -> a <> b -> In a l -> In b l -> (2 <= length l)%nat.
Proof.
  intros ND D Ha Hb. destruct l as [|x [|y l]]; cbn; try lia; [contradiction|].
  destruct Ha as [->|[]]. destruct Hb as [->|[]]. congruence.
Qed.
Lemma filter_length_split {A} (p : A -> bool) l : (length (filter p l) + length (filter (fun x => negb (p x)) l) = length l)%nat.
Proof. induction l as [|a l IH]; cbn; [reflexivity|]. destruct (p a); cbn; lia. Qed.
Lemma filter_one (l : list nat) j : NoDup l -> length (filter (Nat.eqb j) l) = if memb j l then 1%nat else 0%nat.
Proof.
  induction l as [|a l IH]; intros ND; [reflexivity|]. apply NoDup_cons_iff in ND. destruct ND as [NI ND]. cbn [filter memb existsb].
  destruct (Nat.eqb_spec j a) as [->|D]; cbn [orb].
  - cbn [length]. rewrite IH by assumption. apply memb_false in NI. rewrite NI. reflexivity.
  - now rewrite IH.
Qed.

Lemma filter_filter {A} (p q : A -> bool) l : filter q (filter p l) = filter (fun x => p x && q x) l.
Proof. induction l as [|a l IH]; cbn; [reflexivity|]. destruct (p a); cbn; [destruct (q a); now rewrite IH|assumption]. Qed.

Section Bipartite.
Variables A B : nat -> list nat.
Hypothesis (IN : forall i j, In i (A j) <-> In j (B i)) (NA : forall j, NoDup (A j)) (NB : forall i, NoDup (B i)).
Definition bip (a b : nat -> nat) : Prop :=
  (forall j, a j <> 0%nat -> a j = length (alive b (A j))) /\ (forall i, b i <> 0%nat -> b i = length (alive a (B i))).
(** removing one element of the first kind *)
Lemma bip_delete a b a' b' j : bip a b -> a j <> 0%nat -> a' j = 0%nat -> (forall k, k <> j -> a' k = a k) ->
  (forall i, b' i = (b i - if memb i (alive b (A j)) then 1 else 0)%nat) -> bip a' b'.
Proof.
  intros [HA HB] J J' K I. split.
  - intros k Nk. destruct (Nat.eq_dec k j) as [->|D]; [contradiction|]. rewrite K in * by assumption. rewrite HA by assumption.
    unfold alive. f_equal. apply filter_ext_in. intros i Hi. f_equal. rewrite I.
    destruct (memb i (alive b (A j))) eqn:E; [|now rewrite Nat.sub_0_r].
    apply memb_In, alive_In in E. destruct E as [Ij Nb].
    assert (2 <= b i)%nat.
    { rewrite HB by assumption. apply (two_length _ k j); [apply alive_NoDup, NB|assumption| |]; apply alive_In; (split; [now apply IN|assumption]). }
    destruct (Nat.eqb_spec (b i) 0), (Nat.eqb_spec (b i - 1) 0); lia.
  - intros i Nb. rewrite I in *. assert (Nbi : b i <> 0%nat) by lia.
    pose proof (HB i Nbi) as E.
    assert (F : alive a' (B i) = filter (fun k => negb (Nat.eqb j k)) (alive a (B i))).
    { unfold alive. rewrite filter_filter. apply filter_ext_in. intros k _. destruct (Nat.eqb_spec j k) as [<-|D].
      - rewrite J', andb_false_r. reflexivity.
      - rewrite K by congruence. now rewrite andb_true_r. }
    rewrite F. pose proof (filter_length_split (Nat.eqb j) (alive a (B i))) as S. rewrite filter_one in S by apply alive_NoDup, NB.
    assert (M : memb j (alive a (B i)) = memb i (alive b (A j))).
    { apply eq_true_iff_eq. rewrite !memb_In, !alive_In. rewrite IN. tauto. }
    rewrite M in S. rewrite E. destruct (memb i (alive b (A j))); lia.
Qed.
End Bipartite.

(** ** The counters *)
Definition cv (s : pindex) (j : nat) : nat := nth j (c_var (i_c s)) 0%nat.
Definition cc (s : pindex) (i : nat) : nat := nth i (c_con (i_c s)) 0%nat.
Definition ca (s : pindex) (i : nat) (d : bdir) : nat := side d (nth i (c_act (i_c s)) (0, 0)%nat).
Definition cache (s : pindex) (i : nat) (d : bdir) : option Qc := side d (nth i (i_act s) (None, None)).
Lemma nth_nonzero_lt (l : list nat) k : nth k l 0%nat <> 0%nat -> (k < length l)%nat.
Proof. intros H. destruct (Nat.lt_ge_cases k (length l)); [assumption|]. rewrite nth_overflow in H by assumption. congruence. Qed.
Lemma con_active_cc s i : con_active (i_c s) i = negb (Nat.eqb (cc s i) 0). Proof. reflexivity. Qed.
Lemma var_active_cv s j : var_active (i_c s) j = negb (Nat.eqb (cv s j) 0). Proof. reflexivity. Qed.

Definition lowered (l : list nat) (k : nat) : list nat := upd l k (nth k l 0 - 1)%nat.
Lemma nth_lowered l k i : nth i (lowered l k) 0%nat = (nth i l 0 - if Nat.eqb i k then 1 else 0)%nat.
Proof.
  unfold lowered. destruct (Nat.lt_ge_cases k (length l)).
  - rewrite upd_nth by assumption. destruct (Nat.eqb_spec i k) as [->|]; lia.
  - assert (E : upd l k (nth k l 0 - 1)%nat = l).
    { clear -H. generalize (nth k l 0 - 1)%nat. revert k H. induction l as [|a l IH]; intros [|k] H x; cbn in *; try reflexivity; try lia.
      f_equal. apply IH. lia. }
    rewrite E. destruct (Nat.eqb_spec i k) as [->|]; [|lia]. rewrite nth_overflow by assumption. reflexivity.
Qed.
Lemma lowered_length l k : length (lowered l k) = length l. Proof. apply upd_length. Qed.
Lemma dec_ok l k : nth k l 0%nat <> 0%nat -> dec l k = Go (lowered l k).
Proof. intros H. unfold dec, lowered. destruct (nth k l 0%nat); [congruence|]. do 2 f_equal. lia. Qed.
Lemma dec_var_ok s j : cv s j <> 0%nat ->
  dec_var s j = Go (with_c s (mk_pcounters (lowered (c_var (i_c s)) j) (c_con (i_c s)) (c_act (i_c s)))).
Proof. intros H. unfold dec_var. now rewrite dec_ok. Qed.
Lemma dec_con_ok s i : cc s i <> 0%nat ->
  dec_con s i = Go (with_c s (mk_pcounters (c_var (i_c s)) (lowered (c_con (i_c s)) i) (c_act (i_c s)))).
Proof. intros H. unfold dec_con. now rewrite dec_ok. Qed.

Definition add_gone (u : updates) (l : list nat) : updates :=
  mk_updates (u_b u) (u_types u) (u_fixed u) (u_bounds u) (u_acts u) (u_removed u) (u_gone u ++ l).
Lemma add_gone_nil u : add_gone u [] = u. Proof. destruct u. unfold add_gone. cbn. now rewrite app_nil_r. Qed.
Lemma add_gone_app u a b : add_gone (add_gone u a) b = add_gone u (a ++ b). Proof. unfold add_gone. cbn. now rewrite app_assoc. Qed.

Section Pre.
Variables (g : general) (rows : list svec).
Local Notation n := (nr_vars g).
Local Notation m := (g_rows g).

Definition add_solved (u : updates) (l : list (nat * Qc)) : updates :=
  mk_updates (u_b u) (u_types u) (fold_left (fun acc '(j, v) => acc + v_cost (gvar g j) * v) l (u_fixed u)) (u_bounds u) (u_acts u)
    (u_removed u ++ map (fun '(j, v) => (j, Solved v)) l) (u_gone u).
Lemma add_solved_nil u : add_solved u [] = u. Proof. destruct u. unfold add_solved. cbn. now rewrite app_nil_r. Qed.
Lemma add_solved_app u a b : add_solved (add_solved u a) b = add_solved u (a ++ b).
Proof. unfold add_solved. cbn. now rewrite fold_left_app, map_app, app_assoc. Qed.
(** the value a variable without constraints gets *)
Definition eliminated (u : updates) (j : nat) (v : Qc) : Prop :=
  (v_cost (gvar g j) = 0 /\ feasible_value g u j = Some v) \/
  (v_cost (gvar g j) <> 0 /\ optimize_column g (v_cost (gvar g j)) (bound_of g u j Lower) (bound_of g u j Upper) = Go v).

(** *** Loop over the rows of a column *)
Definition take_rows (j : nat) (s : pindex) (e : nat * Qc) : pr pindex :=
  let (i, _) := e in let+ s := dec_var s j in let+ s := dec_con s i in queue_constraint g s i.
Lemma take_rows_spec j : forall l s, NoDup (map fst l) -> (forall i, In i (map fst l) -> cc s i <> 0%nat) -> (length l <= cv s j)%nat ->
  pspec (foldP (take_rows j) l s) (fun s' =>
      i_act s' = i_act s /\ c_act (i_c s') = c_act (i_c s) /\
      length (c_var (i_c s')) = length (c_var (i_c s)) /\ length (c_con (i_c s')) = length (c_con (i_c s)) /\
      (forall k, cv s' k = (cv s k - if Nat.eqb k j then length l else 0)%nat) /\
      (forall i, cc s' i = (cc s i - if memb i (map fst l) then 1 else 0)%nat) /\
      i_u s' = add_gone (i_u s) (filter (fun i => Nat.eqb (cc s i) 1) (map fst l)) /\
      q_sub (i_q s') = q_sub (i_q s) /\ q_slack (i_q s') = q_slack (i_q s) /\ q_act (i_q s') = q_act (i_q s) /\
      (forall x, In x (q_bound (i_q s')) <-> In x (q_bound (i_q s)) \/ (In x (map fst l) /\ cc s x = 2%nat)) /\
      (forall i, In i (map fst l) -> cc s i = 1%nat -> empty_feasible (b_of g (i_u s) i) (type_of g (i_u s) i) = true))
    (fun v => v = VInfeasible /\ exists i, In i (map fst l) /\ cc s i = 1%nat /\
       empty_feasible (b_of g (i_u s) i) (type_of g (i_u s) i) = false) False.
Proof.
  induction l as [|[i c] l IH]; intros s ND HC HV; cbn [foldP map fst].
  - cbn. rewrite add_gone_nil. repeat (split; [first [reflexivity|intros; tauto|intros k; destruct (Nat.eqb k j); lia]|]). intros i [].
  - cbn [map fst] in ND, HC. apply NoDup_cons_iff in ND. destruct ND as [NI ND]. cbn [length] in HV.
    assert (Ci : cc s i <> 0%nat) by (apply HC; now left).
    assert (E : take_rows j s (i, c) = queue_constraint g (with_c s (mk_pcounters (lowered (c_var (i_c s)) j) (lowered (c_con (i_c s)) i) (c_act (i_c s)))) i).
    { cbn [take_rows]. rewrite dec_var_ok by lia. cbn [pbind]. rewrite dec_con_ok by exact Ci. reflexivity. }
    rewrite E. clear E. unfold queue_constraint. cbn [i_c c_con with_c i_u]. rewrite nth_lowered, Nat.eqb_refl. fold (cc s i).
    set (c1 := mk_pcounters (lowered (c_var (i_c s)) j) (lowered (c_con (i_c s)) i) (c_act (i_c s))).
    assert (V1 : forall k, nth k (c_var c1) 0%nat = (cv s k - if Nat.eqb k j then 1 else 0)%nat) by (intros; apply nth_lowered).
    assert (C1 : forall k, nth k (c_con c1) 0%nat = (cc s k - if Nat.eqb k i then 1 else 0)%nat) by (intros; apply nth_lowered).
    (* the state after the first row *)
    assert (G : forall s1, i_c s1 = c1 -> i_act s1 = i_act s -> i_u s1 = add_gone (i_u s) (if Nat.eqb (cc s i) 1 then [i] else []) ->
       q_sub (i_q s1) = q_sub (i_q s) -> q_slack (i_q s1) = q_slack (i_q s) -> q_act (i_q s1) = q_act (i_q s) ->
       (forall x, In x (q_bound (i_q s1)) <-> In x (q_bound (i_q s)) \/ (x = i /\ cc s i = 2%nat)) ->
       (cc s i = 1%nat -> empty_feasible (b_of g (i_u s) i) (type_of g (i_u s) i) = true) ->
       pspec (foldP (take_rows j) l s1) (fun s' =>
      i_act s' = i_act s /\ c_act (i_c s') = c_act (i_c s) /\
      length (c_var (i_c s')) = length (c_var (i_c s)) /\ length (c_con (i_c s')) = length (c_con (i_c s)) /\
      (forall k, cv s' k = (cv s k - if Nat.eqb k j then S (length l) else 0)%nat) /\
      (forall k, cc s' k = (cc s k - if memb k (i :: map fst l) then 1 else 0)%nat) /\
      i_u s' = add_gone (i_u s) (filter (fun i => Nat.eqb (cc s i) 1) (i :: map fst l)) /\
      q_sub (i_q s') = q_sub (i_q s) /\ q_slack (i_q s') = q_slack (i_q s) /\ q_act (i_q s') = q_act (i_q s) /\
      (forall x, In x (q_bound (i_q s')) <-> In x (q_bound (i_q s)) \/ (In x (i :: map fst l) /\ cc s x = 2%nat)) /\
      (forall k, In k (i :: map fst l) -> cc s k = 1%nat -> empty_feasible (b_of g (i_u s) k) (type_of g (i_u s) k) = true))
    (fun v => v = VInfeasible /\ exists k, In k (i :: map fst l) /\ cc s k = 1%nat /\
       empty_feasible (b_of g (i_u s) k) (type_of g (i_u s) k) = false) False).
    { intros s1 Ec Ea Eu Q1 Q2 Q3 Q4 EF.
      assert (S1 : forall k, cc s1 k = (cc s k - if Nat.eqb k i then 1 else 0)%nat) by (intros; unfold cc at 1; rewrite Ec; apply C1).
      assert (S2 : forall k, cv s1 k = (cv s k - if Nat.eqb k j then 1 else 0)%nat) by (intros; unfold cv at 1; rewrite Ec; apply V1).
      assert (NE : forall k, In k (map fst l) -> k <> i) by (intros k Hk ->; contradiction).
      assert (S3 : forall k, In k (map fst l) -> cc s1 k = cc s k).
      { intros k Hk. rewrite S1. destruct (Nat.eqb_spec k i); [now apply NE in Hk|lia]. }
      eapply pspec_impl; [apply IH; [assumption| |]| | |auto].
      - intros k Hk. rewrite S3 by assumption. apply HC. now right.
      - rewrite S2, Nat.eqb_refl. lia.
      - cbn beta. intros s' (A1 & A2 & A3 & A4 & A5 & A6 & A7 & A8 & A9 & A10 & A11 & A12).
        repeat split; try congruence.
        + rewrite A2, Ec. reflexivity.
        + rewrite A3, Ec. cbn. apply lowered_length.
        + rewrite A4, Ec. cbn. apply lowered_length.
        + intros k. rewrite A5, S2. destruct (Nat.eqb k j); lia.
        + intros k. rewrite A6, S1. cbn [memb existsb]. fold (memb k (map fst l)). destruct (Nat.eqb_spec k i) as [->|]; cbn [orb]; [|lia].
          apply memb_false in NI. rewrite NI. lia.
        + rewrite A7, Eu, add_gone_app. f_equal. cbn [filter].
          rewrite (filter_ext_in (fun i0 => Nat.eqb (cc s1 i0) 1) (fun i0 => Nat.eqb (cc s i0) 1)) by (intros k Hk; now rewrite S3).
          destruct (Nat.eqb (cc s i) 1); reflexivity.
        + intros H. apply A11 in H. destruct H as [H|[H H']]; [|right; split; [now right|rewrite <- S3; assumption]].
          apply Q4 in H. destruct H as [H|[-> H]]; [now left|right; split; [now left|assumption]].
        + intros [H|[[<-|H] H']]; apply A11.
          * left. apply Q4. now left.
          * left. apply Q4. now right.
          * right. split; [assumption|]. now rewrite S3.
        + intros k [<-|Hk] H; [now apply EF|]. specialize (A12 k Hk). rewrite S3 in A12 by assumption. specialize (A12 H).
          rewrite Eu in A12. exact A12.
      - cbn beta. intros v [-> (k & Hk & H1 & H2)]. split; [reflexivity|]. exists k. split; [now right|]. rewrite S3 in H1 by assumption.
        split; [assumption|]. rewrite Eu in H2. exact H2. }
    destruct (cc s i) as [|[|[|k]]] eqn:Ek; cbn [Nat.sub].
    + congruence.
    + cbn [Nat.eqb] in G. change (b_of g (i_u (with_c s c1)) i) with (b_of g (i_u s) i).
      change (type_of g (i_u (with_c s c1)) i) with (type_of g (i_u s) i).
      destruct (empty_feasible (b_of g (i_u s) i) (type_of g (i_u s) i)) eqn:EF; cbn [pbind].
      * apply G; try reflexivity. cbn. intros x. split; [now left|intros [H|[_ H]]; [assumption|discriminate]].
      * cbn. split; [reflexivity|]. exists i. split; [now left|]. split; [exact Ek|assumption].
    + cbn [pbind]. apply G; try reflexivity; [cbn; now rewrite add_gone_nil| |discriminate].
      cbn. intros x. split; [intros [<-|H]; [right; now split|now left]|intros [H|[-> _]]; [now right|now left]].
    + cbn [pbind]. apply G; try reflexivity; [cbn; now rewrite add_gone_nil| |discriminate].
      cbn. intros x. split; [now left|intros [H|[_ H]]; [assumption|discriminate]].
Qed.
End Pre.
