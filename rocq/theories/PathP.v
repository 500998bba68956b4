(** * Walks and flows *)
From Verif Require Export SpecPath NetModel Spec Qcx.
From Verif Require Import SolverQ.
Local Open Scope Qc_scope.

Section Flow.
Variables (n : nat) (A : list (nat * nat * Qc)).
Local Notation m := (length A).
Hypothesis ends : forall f t v, In (f, t, v) A -> (f < n)%nat /\ (t < n)%nat.
Local Notation tail := (arc_tail A).
Local Notation head := (arc_head A).
Definition balance (x : vec) (v : nat) : Qc := sum m (fun k => incidence_entry (tail k) (head k) v * x k).
Definition cost_of (x : vec) : Qc := sum m (fun k => arc_length A k * x k).
Fixpoint uses (l : list nat) (k : nat) : Qc := match l with [] => 0 | j :: t => delta j k + uses t k end.

Lemma arc_at k u v len : nth_error A k = Some (u, v, len) -> (k < m)%nat /\ tail k = u /\ head k = v /\ arc_length A k = len.
Proof.
  intros E. assert (L : (k < m)%nat) by (apply nth_error_Some; congruence). unfold tail, head, arc_length. rewrite (nth_error_nth _ _ _ E), E. auto.
Qed.
Lemma arc_lt k : (k < m)%nat -> nth_error A k = Some (tail k, head k, arc_length A k) /\ (tail k < n)%nat /\ (head k < n)%nat.
Proof using ends.
  intros L. destruct (nth_error A k) as [[[u v] len]|] eqn:E; [|apply nth_error_None in E; lia]. destruct (arc_at k u v len E) as (_ & -> & -> & ->).
  split; [reflexivity|]. apply (ends u v len). now apply nth_error_In in E.
Qed.
Lemma uses_nonneg l k : 0 <= uses l k.
Proof. induction l as [|j l IH]; cbn; [qlra|]. unfold delta. destruct (Nat.eqb j k); qlra. Qed.
Lemma uses_0 l k : ~ In k l -> uses l k = 0.
Proof. induction l as [|j l IH]; cbn; [reflexivity|]. intros N. rewrite IH by tauto. unfold delta. destruct (Nat.eqb_spec j k); [tauto|ring]. Qed.
Lemma walk_arcs u w l k : walk A u w l -> In k l -> (k < m)%nat.
Proof. induction 1 as [|u v w len j l E W IH]; intros I; [destruct I|]. destruct I as [<-|I]; [now apply arc_at in E|auto]. Qed.
Lemma walk_balance u w l v : walk A u w l -> balance (uses l) v = delta w v - delta u v.
Proof.
  induction 1 as [u|u u' w len k l E W IH].
  - unfold balance. rewrite sum_zero by (intros; cbn; ring). ring.
  - destruct (arc_at _ _ _ _ E) as (Lk & T & H & _). unfold balance in *. cbn [uses].
    rewrite (sum_ext _ _ (fun j => delta k j * incidence_entry (tail j) (head j) v + incidence_entry (tail j) (head j) v * uses l j)) by (intros; ring).
    rewrite sum_plus, IH, sum_delta_l by assumption. rewrite T, H. unfold incidence_entry, delta. rewrite (Nat.eqb_sym v u'), (Nat.eqb_sym v u). ring.
Qed.
Lemma walk_cost u w l : walk A u w l -> cost_of (uses l) = walk_length A l.
Proof.
  induction 1 as [u|u u' w len k l E W IH].
  - unfold cost_of. apply sum_zero. intros; cbn; ring.
  - destruct (arc_at _ _ _ _ E) as (Lk & _ & _ & _). unfold cost_of in *. cbn [uses walk_length].
    rewrite (sum_ext _ _ (fun j => delta k j * arc_length A j + arc_length A j * uses l j)) by (intros; ring).
    rewrite sum_plus, IH, sum_delta_l by assumption. reflexivity.
Qed.
Lemma walk_app u v w l l' : walk A u v l -> walk A v w l' -> walk A u w (l ++ l').
Proof. induction 1 as [|u u' v len k l E W IH]; intros W'; [assumption|]. cbn. econstructor; eauto. Qed.
Lemma balance_ext x y v : (forall k, (k < m)%nat -> x k = y k) -> balance x v = balance y v.
Proof. intros H. apply sum_ext. intros k L. now rewrite H. Qed.

(** ** Either there is a walk along arcs with positive amounts, or a set of vertices that none of them leaves *)
Section Search.
Variables (s t : nat) (x : vec).
Definition inside (r : nat -> bool) : Prop := forall v, r v = true -> exists l, walk A s v l /\ forall k, In k l -> 0 < x k.
Definition outside (r : nat -> bool) : nat := length (filter (fun v => negb (r v)) (seq 0 n)).
Lemma cut_search : forall f r, (outside r < f)%nat -> r s = true -> inside r ->
  (exists l, walk A s t l /\ forall k, In k l -> 0 < x k) \/
  exists r, r s = true /\ r t = false /\ forall k, (k < m)%nat -> r (tail k) = true -> r (head k) = false -> x k <= 0.
Proof using ends.
  induction f as [|f IH]; intros r Lf Rs I; [lia|]. destruct (r t) eqn:Rt; [left; now apply I|].
  destruct (find (fun k => r (tail k) && negb (r (head k)) && qpos (x k)) (seq 0 m)) as [k|] eqn:Fk.
  - apply find_some in Fk. destruct Fk as [Ik Pk]. apply in_seq in Ik. rewrite !andb_true_iff in Pk. destruct Pk as [[P1 P2] P3]. apply negb_true_iff in P2. qb.
    destruct (arc_lt k) as (Ek & L1 & L2); [lia|]. apply (IH (fun v => if Nat.eqb v (head k) then true else r v)).
    + apply Nat.lt_le_trans with (outside r); [|lia]. clear -P2 L2. unfold outside. assert (G : forall l, NoDup l -> In (head k) l ->
        (length (filter (fun v => negb (if Nat.eqb v (head k) then true else r v)) l) < length (filter (fun v => negb (r v)) l))%nat).
      { assert (LE : forall l, (length (filter (fun v => negb (if Nat.eqb v (head k) then true else r v)) l) <= length (filter (fun v => negb (r v)) l))%nat).
        { induction l as [|a l IHl]; [apply le_n|]. cbn. destruct (Nat.eqb_spec a (head k)) as [->|]; [rewrite P2; cbn; lia|]. destruct (r a); cbn; lia. }
        induction l as [|a l IHl]; intros ND I; [destruct I|]. cbn. destruct (Nat.eqb_spec a (head k)) as [->|Ne]; [rewrite P2; cbn; specialize (LE l); lia|].
        inversion ND; subst. destruct I as [->|I]; [congruence|]. specialize (IHl H2 I). destruct (r a); cbn; lia. }
      apply G; [apply seq_NoDup|apply in_seq; lia].
    + now destruct (Nat.eqb s (head k)).
    + intros v Rv. destruct (Nat.eqb_spec v (head k)) as [Ev|Nv]; [|now apply I].
      destruct (I (tail k) P1) as (l & W & P). exists (l ++ [k]). subst v. split.
      * apply (walk_app _ _ _ _ _ W). econstructor; [exact Ek|constructor].
      * intros j Ij. apply in_app_iff in Ij. destruct Ij as [Ij|[<-|[]]]; auto.
  - right. exists r. split; [assumption|split; [assumption|]]. intros k Lk R1 R2. assert (Ik : In k (seq 0 m)) by (apply in_seq; lia).
    pose proof (find_none _ _ Fk k Ik) as Q. cbn in Q. rewrite R1, R2 in Q. cbn in Q. now qb.
Qed.
Lemma walk_or_cut : (exists l, walk A s t l /\ forall k, In k l -> 0 < x k) \/
  exists r, r s = true /\ r t = false /\ forall k, (k < m)%nat -> r (tail k) = true -> r (head k) = false -> x k <= 0.
Proof using ends.
  apply (cut_search (S (outside (fun v => Nat.eqb v s))) (fun v => Nat.eqb v s)); [lia|apply Nat.eqb_refl|]. intros v E. apply Nat.eqb_eq in E. subst v. exists []. split; [constructor|intros k []].
Qed.
End Search.

(** ** Sums over the vertices *)
Lemma weighted d x : sum n (fun v => d v * balance x v) = sum m (fun k => (d (head k) - d (tail k)) * x k).
Proof using ends.
  rewrite (sum_ext n _ (fun v => sum m (fun k => d v * (incidence_entry (tail k) (head k) v * x k)))) by (intros; unfold balance; now rewrite sum_scal_l).
  rewrite sum_swap. apply sum_ext. intros k Lk. destruct (arc_lt k Lk) as (_ & L1 & L2).
  rewrite (sum_ext n _ (fun v => (delta (head k) v * d v) * x k - (delta (tail k) v * d v) * x k)).
  - rewrite sum_minus, !sum_scal_r, !sum_delta_l by assumption. ring.
  - intros v _. unfold incidence_entry, delta. rewrite (Nat.eqb_sym v (head k)), (Nat.eqb_sym v (tail k)). ring.
Qed.

(** ** A flow uses a walk *)
Section Cut.
Variables (s t : nat) (x : vec).
Hypothesis Lt : (t < n)%nat.
Hypothesis nonneg : forall k, (k < m)%nat -> 0 <= x k.
Hypothesis flow : forall v, (v < n)%nat -> v <> s -> balance x v = delta t v.
Lemma cut_closed r : r s = true -> r t = false -> (forall k, (k < m)%nat -> r (tail k) = true -> r (head k) = false -> x k <= 0) -> False.
Proof using ends Lt nonneg flow.
  intros Rs Rt H. set (out := fun v => if r v then 0 else 1).
  assert (O : sum n (fun v => out v * balance x v) = 1).
  { rewrite (sum_ext n _ (fun v => delta t v * out v)).
    - rewrite sum_delta_l by assumption. unfold out. now rewrite Rt.
    - intros v L. unfold out. destruct (r v) eqn:Rv; [|rewrite flow; [ring|assumption|congruence]].
      unfold delta. destruct (Nat.eqb_spec t v) as [<-|]; [congruence|ring]. }
  assert (O3 : 0 <= sum m (fun k => - ((out (head k) - out (tail k)) * x k))).
  { apply sum_nonneg. intros k Lk. specialize (nonneg k Lk). specialize (H k Lk). unfold out. destruct (r (head k)), (r (tail k)); try (specialize (H eq_refl eq_refl)); qlra. }
  rewrite sum_opp, <- weighted, O in O3. apply Qcle_not_lt in O3. apply O3. reflexivity.
Qed.
Lemma flow_walk : exists l, walk A s t l /\ forall k, In k l -> 0 < x k.
Proof using ends Lt nonneg flow.
  destruct (walk_or_cut s t x) as [W|(r & R1 & R2 & R3)]; [assumption|]. exfalso. exact (cut_closed r R1 R2 R3).
Qed.
End Cut.

(** ** Room to move away from a walk that is used *)
Lemma room (x u : vec) : forall N, (forall k, (k < N)%nat -> 0 <= x k /\ 0 <= u k /\ (x k = 0 -> u k = 0)) -> exists e, 0 < e /\ forall k, (k < N)%nat -> e * u k <= x k.
Proof.
  induction N as [|N IH]; intros H; [exists 1; split; [reflexivity|lia]|]. destruct IH as (e & Pe & He); [intros; apply H; lia|].
  destruct (H N) as (H1 & H2 & H3); [lia|]. destruct (Qc_eq_dec (x N) 0) as [Z|NZ].
  - exists e. split; [assumption|]. intros k L. destruct (Nat.eq_dec k N) as [->|Nk]; [|apply He; lia]. rewrite (H3 Z), Z. qlra.
  - assert (PX : 0 < x N) by (apply Qcle_lt_or_eq in H1; destruct H1 as [|E]; [assumption|now symmetry in E]).
    assert (P1 : 0 < u N + 1) by qlra. set (f := x N / (u N + 1)).
    assert (N1 : u N + 1 <> 0) by (intros E; rewrite E in P1; discriminate). assert (EF : f * (u N + 1) = x N) by (unfold f; field; exact N1).
    assert (PF : 0 < f). { destruct (Qclt_le_dec 0 f) as [|C]; [assumption|]. exfalso. assert (Q : f * (u N + 1) <= 0) by qnra. rewrite EF in Q. qlra. }
    exists (qmin e f). assert (M : 0 < qmin e f /\ qmin e f <= e /\ qmin e f <= f) by (unfold qmin; destruct (qltb f e) eqn:C; qb; repeat split; qlra).
    destruct M as (M1 & M2 & M3). split; [assumption|]. intros k L. destruct (Nat.eq_dec k N) as [->|Nk].
    + assert (Q : qmin e f * u N <= f * u N) by (apply Qcmult_le_compat_r; assumption). assert (f * u N = x N - f) by (rewrite <- EF; ring). qlra.
    + assert (Lk : (k < N)%nat) by lia. specialize (He k Lk). destruct (H k L) as (_ & U & _). assert (Q : qmin e f * u k <= e * u k) by (apply Qcmult_le_compat_r; assumption). qlra.
Qed.

(** ** Closed walks *)
Definition vertices (u : nat) (l : list nat) : list nat := u :: map head l.
Lemma walk_from u w l v : walk A u w l -> In v (vertices u l) -> exists l1 l2, l = l1 ++ l2 /\ walk A u v l1 /\ walk A v w l2.
Proof.
  induction 1 as [u|u u' w len k l E W IH]; intros I.
  - destruct I as [<-|[]]. exists [], []. repeat split; constructor.
  - destruct (Nat.eq_dec u v) as [<-|N]; [exists [], (k :: l); repeat split; [constructor|econstructor; eauto]|].
    destruct I as [I|I]; [congruence|]. destruct (arc_at _ _ _ _ E) as (_ & _ & H & _). cbn [map] in I. rewrite H in I. destruct (IH I) as (l1 & l2 & -> & W1 & W2).
    exists (k :: l1), l2. repeat split; [econstructor; eauto|assumption].
Qed.
Lemma walk_splits u w l : walk A u w l -> NoDup (vertices u l) \/ exists v l1 l2 l3, l = l1 ++ l2 ++ l3 /\ l2 <> [] /\ walk A u v l1 /\ walk A v v l2 /\ walk A v w l3.
Proof.
  induction 1 as [u|u u' w len k l E W IH]; [left; constructor; [intros []|constructor]|].
  destruct (arc_at _ _ _ _ E) as (_ & _ & H & _). unfold vertices in *. cbn [map]. rewrite H. destruct IH as [ND|(v & l1 & l2 & l3 & -> & N & W1 & W2 & W3)].
  - destruct (in_dec Nat.eq_dec u (u' :: map head l)) as [I|NI]; [right|left; now constructor].
    destruct (walk_from u' w l u W I) as (l1 & l2 & -> & W1 & W2). exists u, [], (k :: l1), l2. repeat split; [discriminate|constructor|econstructor; eauto|assumption].
  - right. exists v, (k :: l1), l2, l3. repeat split; try assumption. econstructor; eauto.
Qed.
Lemma long_walk u w l : (u < n)%nat -> walk A u w l -> (n <= length l)%nat -> exists v l1 l2 l3, l = l1 ++ l2 ++ l3 /\ l2 <> [] /\ walk A u v l1 /\ walk A v v l2 /\ walk A v w l3.
Proof using ends.
  intros Lu W L. destruct (walk_splits u w l W) as [ND|X]; [|assumption]. exfalso.
  pose proof (NoDup_incl_length ND (l' := seq 0 n)) as Q. rewrite seq_length in Q. unfold vertices in Q. cbn [length] in Q. rewrite map_length in Q.
  assert (S (length l) <= n)%nat; [|lia]. apply Q. intros v [<-|I]; [apply in_seq; lia|]. apply in_map_iff in I. destruct I as (k & <- & I).
  destruct (arc_lt k (walk_arcs u w l k W I)) as (_ & _ & H). apply in_seq. lia.
Qed.
Lemma length_app l l' : walk_length A (l ++ l') = walk_length A l + walk_length A l'.
Proof. induction l as [|k l IH]; cbn; [ring|rewrite IH; ring]. Qed.

(** ** The shortest walks with a given number of arcs *)
Fixpoint dist (i : nat) (v : nat) : Qc :=
  match i with
  | 0%nat => 0
  | S i' => fold_left (fun a k => if Nat.eqb (tail k) v then qmin a (arc_length A k + dist i' (head k)) else a) (seq 0 m) (dist i' v)
  end.
Lemma qmin_l a b : qmin a b <= a. Proof. unfold qmin. destruct (qltb b a) eqn:C; qb; qlra. Qed.
Lemma qmin_r a b : qmin a b <= b. Proof. unfold qmin. destruct (qltb b a) eqn:C; qb; qlra. Qed.
Lemma fold_min (p : nat -> bool) (h : nat -> Qc) : forall l a, let r := fold_left (fun a k => if p k then qmin a (h k) else a) l a in
  r <= a /\ (forall k, In k l -> p k = true -> r <= h k) /\ (r = a \/ exists k, In k l /\ p k = true /\ r = h k).
Proof.
  induction l as [|k l IH]; intros a; cbn [fold_left].
  - split; [qlra|]. split; [intros k []|now left].
  - set (a' := if p k then qmin a (h k) else a). specialize (IH a'). cbv zeta in IH. destruct IH as (H1 & H2 & H3).
    assert (A1 : a' <= a) by (unfold a'; destruct (p k); [apply qmin_l|qlra]).
    assert (A2 : p k = true -> a' <= h k) by (intros P; unfold a'; rewrite P; apply qmin_r).
    split; [qlra|]. split.
    + intros j [<-|I] P; [specialize (A2 P); qlra|now apply H2].
    + destruct H3 as [H3|(j & I & P & E)]; [|right; exists j; repeat split; auto; now right]. unfold a' in *. destruct (p k) eqn:P; [|now left].
      unfold qmin in *. destruct (qltb (h k) a); [right; exists k; repeat split; auto; now left|now left].
Qed.
Lemma dist_step i v : dist (S i) v <= dist i v /\ forall k, (k < m)%nat -> tail k = v -> dist (S i) v <= arc_length A k + dist i (head k).
Proof.
  pose proof (fold_min (fun k => Nat.eqb (tail k) v) (fun k => arc_length A k + dist i (head k)) (seq 0 m) (dist i v)) as (H1 & H2 & _). cbv beta in *. split; [exact H1|].
  intros k L E. apply H2; [apply in_seq; lia|now apply Nat.eqb_eq].
Qed.
Lemma dist_least : forall i u w l, walk A u w l -> (length l <= i)%nat -> dist i u <= walk_length A l.
Proof.
  induction i as [|i IH]; intros u w l W L.
  - destruct l; [cbn; qlra|cbn in L; lia].
  - destruct W as [u|u v w len k l E W].
    + apply Qcle_trans with (dist i u); [apply dist_step|]. apply (IH u u []); [constructor|apply Nat.le_0_l].
    + destruct (arc_at _ _ _ _ E) as (Lk & T & H & _). destruct (dist_step i u) as [_ D]. specialize (D k Lk T). rewrite H in D. cbn [walk_length].
      assert (Q : dist i v <= walk_length A l) by (apply (IH v w l W); cbn in L; lia). qlra.
Qed.
Lemma dist_walk : forall i v, (v < n)%nat -> exists w l, walk A v w l /\ (length l <= i)%nat /\ walk_length A l = dist i v.
Proof using ends.
  induction i as [|i IH]; intros v L.
  - exists v, []. repeat split; [constructor|apply le_n].
  - pose proof (fold_min (fun k => Nat.eqb (tail k) v) (fun k => arc_length A k + dist i (head k)) (seq 0 m) (dist i v)) as (_ & _ & H). cbv beta in H. cbn [dist].
    destruct H as [E|(k & I & P & E)].
    + rewrite E. destruct (IH v L) as (w & l & W & Ll & EL). exists w, l. repeat split; [assumption|lia|assumption].
    + rewrite E. apply in_seq in I. apply Nat.eqb_eq in P. destruct (arc_lt k) as (Ek & _ & Lh); [lia|]. destruct (IH (head k) Lh) as (w & l & W & Ll & EL).
      exists w, (k :: l). split; [rewrite <- P; econstructor; eauto|]. split; [cbn; lia|]. cbn. now rewrite EL.
Qed.
(** either lengths are differences of potentials at most, or there is a closed walk of negative length *)
Lemma potentials : (exists v l, (v < n)%nat /\ walk A v v l /\ walk_length A l < 0) \/ (forall k, (k < m)%nat -> dist n (tail k) <= arc_length A k + dist n (head k)).
Proof using ends.
  destruct (find (fun k => qltb (arc_length A k + dist n (head k)) (dist n (tail k))) (seq 0 m)) as [k|] eqn:Fk.
  - left. apply find_some in Fk. destruct Fk as [I P]. apply in_seq in I. qb. destruct (arc_lt k) as (Ek & Lt & Lh); [lia|].
    destruct (dist_walk n (head k) Lh) as (w & l & W & Ll & EL). assert (W' : walk A (tail k) w (k :: l)) by (econstructor; eauto).
    assert (LL : (length l = n)%nat).
    { destruct (Nat.eq_dec (length l) n) as [|N]; [assumption|]. exfalso. pose proof (dist_least n (tail k) w (k :: l) W') as Q. cbn in Q. rewrite EL in Q.
      assert (dist n (tail k) <= arc_length A k + dist n (head k)) by (apply Q; lia). qlra. }
    destruct (long_walk (tail k) w (k :: l) Lt W') as (v & l1 & l2 & l3 & El & N2 & W1 & W2 & W3); [cbn; lia|].
    exists v, l2. assert (Lv : (v < n)%nat). { clear - W2 N2 ends. inversion W2 as [|a b c len k' l' E' _]; subst; [congruence|]. apply nth_error_In in E'. exact (proj1 (ends _ _ _ E')). }
    split; [assumption|split; [assumption|]]. assert (L3 : (length (l1 ++ l3) <= n)%nat).
    { apply (f_equal (@length nat)) in El. cbn in El. rewrite !app_length in *. destruct l2; [congruence|]. cbn in El. lia. }
    pose proof (dist_least n (tail k) w (l1 ++ l3) (walk_app _ _ _ _ _ W1 W3) L3) as Q. rewrite length_app in Q. apply (f_equal (walk_length A)) in El. cbn [walk_length] in El.
    rewrite !length_app, EL in El. qlra.
  - right. intros k L. assert (I : In k (seq 0 m)) by (apply in_seq; lia). pose proof (find_none _ _ Fk k I) as Q. cbn in Q. qb. assumption.
Qed.
Lemma balance_all x : sum n (balance x) = 0.
Proof using ends.
  rewrite (sum_ext n _ (fun v => 1 * balance x v)) by (intros; ring). rewrite (weighted (fun _ => 1)). apply sum_zero. intros; ring.
Qed.
Lemma cost_potential d x : (forall k, (k < m)%nat -> d (tail k) <= arc_length A k + d (head k)) -> (forall k, (k < m)%nat -> 0 <= x k) ->
  - sum n (fun v => d v * balance x v) <= cost_of x.
Proof using ends.
  intros H N. rewrite weighted, <- sum_opp. apply sum_le. intros k L. specialize (H k L). specialize (N k L).
  assert (Q : 0 <= (arc_length A k + d (head k) - d (tail k)) * x k) by (assert (0 <= arc_length A k + d (head k) - d (tail k)) by qlra; qnra). qlra.
Qed.
End Flow.

(** ** The linear program *)
Section Primal.
Variables (adjacency : list svec) (s t : nat).
Local Notation n := (length adjacency).
Local Notation A := (arcs adjacency).
Hypothesis GO : graph_ok adjacency.
Hypothesis Ls : (s < n)%nat.
Hypothesis Lt : (t < n)%nat.
Hypothesis N : s <> t.
Lemma arcs_ends f u v : In (f, u, v) A -> (f < n)%nat /\ (u < n)%nat.
Proof using GO. intros I. apply arcs_In in I. destruct I as [L I]. split; [assumption|]. destruct GO as [G1 _]. exact (wfs_In_lt _ _ _ _ (G1 f L) I). Qed.
Definition is_flow (x : vec) : Prop := (forall v, (v < n)%nat -> v <> s -> balance A x v = delta t v) /\ forall k, (k < length A)%nat -> 0 <= x k.
Lemma primal_spec : exists p, shortest_path adjacency s t = Ok p /\ provider_ok p /\ p_init p = NoInit /\ p_cols p = length A /\
  (forall x, feasible p x <-> is_flow x) /\ forall x, objective p x = cost_of A x.
Proof using GO Ls Lt N.
  destruct GO as [G1 G2]. destruct (incidence_spec adjacency [s] G1 G2) as (im & cost & E & R & V & ED & C & H).
  { constructor; [intros []|constructor]. } { intros r [<-|[]]. assumption. }
  assert (ND : NoDup [s]) by (constructor; [intros []|constructor]). assert (LK : length (kept n [s]) = (n - 1)%nat) by (apply (kept_length n [s]); split; [assumption|intros r [<-|[]]; assumption]).
  set (ti := pos [s] t). assert (ET : t_index s t = Ok ti).
  { unfold t_index, ti, pos, count_below. cbn [filter]. destruct (Nat.ltb_spec t s), (Nat.ltb_spec s t); try lia; cbn [length]; [f_equal; lia|]. destruct t; [lia|f_equal; lia]. }
  assert (NT : nth ti (kept n [s]) 0%nat = t) by (apply nth_pos; [assumption|assumption|intros [X|[]]; congruence]).
  assert (LT : (ti < n - 1)%nat). { unfold ti, pos, count_below. cbn [filter]. destruct (Nat.ltb_spec s t); cbn [length]; lia. }
  unfold shortest_path. rewrite E. cbn [bind]. rewrite V, ET. cbn [bind].
  assert (SI : set_index (repeat 0 (n - 1)) ti 1 = Ok (upd (repeat 0 (n - 1)) ti 1)) by (apply set_index_ok; rewrite repeat_length; now split).
  rewrite SI. cbn [bind]. eexists. split; [reflexivity|].
  assert (RH : forall i, (i < n - 1)%nat -> nthq (upd (repeat 0 (n - 1)) ti 1) i = delta t (nth i (kept n [s]) 0%nat)).
  { intros i Li. unfold nthq. destruct (Nat.eq_dec i ti) as [->|Ne].
    - rewrite upd_nth, Nat.eqb_refl by (rewrite repeat_length; assumption). rewrite NT. unfold delta. now rewrite Nat.eqb_refl.
    - rewrite upd_nth by (rewrite repeat_length; assumption). destruct (Nat.eqb_spec i ti) as [|_]; [congruence|]. assert (Z : nth i (repeat 0 (n - 1)) 0 = 0) by apply nth_repeat. rewrite Z. unfold delta. destruct (Nat.eqb_spec t (nth i (kept n [s]) 0%nat)) as [X|_]; [|reflexivity].
      exfalso. apply Ne. unfold ti. rewrite X. symmetry. apply pos_nth; [assumption|lia]. }
  assert (AT : forall k, (k < length A)%nat -> nth_error A k = Some (arc_tail A k, arc_head A k, arc_length A k)) by (intros k L; now apply (arc_lt n A arcs_ends k)).
  split; [|split; [reflexivity|split; [exact ED|split]]].
  - constructor; cbn [p_rhs p_rows p_cols p_col p_init p_filtered].
    + now rewrite upd_length, repeat_length.
    + intros i Li. rewrite RH by assumption. unfold delta. destruct (Nat.eqb _ _); qlra.
    + intros j Lj. rewrite ED in Lj. destruct (H j _ _ _ (AT j Lj)) as [W _]. now rewrite R in W.
    + exact I.
    + intros rm j _ _ _. apply arc_filter_spec.
  - intros x. unfold feasible, is_flow. cbn [p_rhs p_rows p_cols p_col]. rewrite ED. 
    assert (X : forall i, (i < n - 1)%nat -> sum (length A) (fun j => den (arc_entries (im_column im j)) i * x j) = balance A x (nth i (kept n [s]) 0%nat)).
    { intros i Li. apply sum_ext. intros j Lj. destruct (H j _ _ _ (AT j Lj)) as [_ D]. rewrite D by (rewrite R; exact Li). reflexivity. }
    split; intros [F1 F2]; (split; [|assumption]).
    + intros v Lv Nv. assert (Iv : In v (kept n [s])) by (apply kept_In; split; [assumption|intros [X'|[]]; congruence]). apply (In_nth _ _ 0%nat) in Iv. destruct Iv as (i & Li & Ei). rewrite LK in Li.
      specialize (F1 i Li). rewrite X, RH, Ei in F1 by assumption. exact F1.
    + intros i Li. rewrite X, RH by assumption. assert (Iv : In (nth i (kept n [s]) 0%nat) (kept n [s])) by (apply nth_In; lia). apply kept_In in Iv. destruct Iv as [I1 I2]. apply F1; [assumption|].
      intros X'. apply I2. left. now symmetry.
  - intros x. unfold objective, cost_of. cbn [p_cols p_cost]. rewrite ED. apply sum_ext. intros k Lk. f_equal. rewrite C. unfold nthq, arc_length. pose proof (AT k Lk) as Q. rewrite Q. 
    rewrite (nth_error_nth _ _ _ (map_nth_error snd _ _ Q)). reflexivity.
Qed.

Lemma walk_flow l : walk A s t l -> is_flow (uses l).
Proof using N.
  intros W. split; [|intros; apply uses_nonneg]. intros v _ Nv. rewrite (walk_balance A s t l v W). unfold delta. destruct (Nat.eqb_spec s v); [congruence|ring].
Qed.
Lemma flow_closed x v l : is_flow x -> walk A v v l -> is_flow (fun k => x k + uses l k).
Proof.
  intros [F1 F2] W. split; [|intros k L; specialize (F2 k L); pose proof (uses_nonneg l k); qlra]. intros u Lu Nu. rewrite <- (F1 u Lu Nu). unfold balance.
  rewrite (sum_ext _ _ (fun k => incidence_entry (arc_tail A k) (arc_head A k) u * x k + incidence_entry (arc_tail A k) (arc_head A k) u * uses l k)) by (intros; ring).
  rewrite sum_plus. fold (balance A x u) (balance A (uses l) u). rewrite (walk_balance A v v l u W). ring.
Qed.
Lemma optimum_shortest x : is_flow x -> (forall y, is_flow y -> cost_of A x <= cost_of A y) ->
  exists l, shortest A s t l /\ (forall k, In k l -> 0 < x k) /\ walk_length A l = cost_of A x.
Proof using GO Lt N.
  intros F O. destruct F as [F1 F2]. destruct (flow_walk n A arcs_ends s t x Lt F2 F1) as (l & W & P). exists l.
  assert (SH : forall l', walk A s t l' -> cost_of A x <= walk_length A l') by (intros l' W'; rewrite <- (walk_cost A s t l' W'); apply O, walk_flow, W').
  assert (E : walk_length A l = cost_of A x).
  { apply Qcle_antisym; [|now apply SH]. destruct (room x (uses l) (length A)) as (e & Pe & He).
    { intros k L. split; [now apply F2|]. split; [apply uses_nonneg|]. intros Z. apply uses_0. intros I. specialize (P k I). rewrite Z in P. discriminate. }
    set (y := fun k => x k + e * (x k - uses l k)).
    assert (FY : is_flow y).
    { split.
      - intros v Lv Nv. unfold balance, y. rewrite (sum_ext _ _ (fun k => (1 + e) * (incidence_entry (arc_tail A k) (arc_head A k) v * x k) - e * (incidence_entry (arc_tail A k) (arc_head A k) v * uses l k))) by (intros; ring).
        rewrite sum_minus, !sum_scal_l. fold (balance A x v) (balance A (uses l) v). rewrite (F1 v Lv Nv), (walk_balance A s t l v W). unfold delta at 3. destruct (Nat.eqb_spec s v); [congruence|ring].
      - intros k L. unfold y. specialize (He k L). specialize (F2 k L). assert (Q : 0 <= e * x k) by qnra. qlra. }
    specialize (O y FY). assert (CY : cost_of A y = cost_of A x + e * (cost_of A x - walk_length A l)).
    { rewrite <- (walk_cost A s t l W). unfold cost_of, y. rewrite (sum_ext _ _ (fun k => (1 + e) * (arc_length A k * x k) - e * (arc_length A k * uses l k))) by (intros; ring). rewrite sum_minus, !sum_scal_l. ring. }
    rewrite CY in O. destruct (Qclt_le_dec (cost_of A x) (walk_length A l)) as [C|C]; [|assumption]. exfalso.
    assert (Q : 0 < e * (walk_length A l - cost_of A x)). { assert (Z : 0 < walk_length A l - cost_of A x) by qlra. replace 0 with (0 * (walk_length A l - cost_of A x)) by ring. now apply Qcmult_lt_compat_r. } qlra. }
  split; [|split; assumption]. split; [assumption|]. intros l' W'. rewrite E. now apply SH.
Qed.
Lemma optimum_no_cycle x v l : is_flow x -> (forall y, is_flow y -> cost_of A x <= cost_of A y) -> walk A v v l -> 0 <= walk_length A l.
Proof.
  intros F O W. specialize (O _ (flow_closed x v l F W)). unfold cost_of in O.
  rewrite (sum_ext _ (fun k => arc_length A k * (x k + uses l k)) (fun k => arc_length A k * x k + arc_length A k * uses l k)) in O by (intros; ring). rewrite sum_plus in O. fold (cost_of A x) (cost_of A (uses l)) in O.
  rewrite (walk_cost A v v l W) in O. qlra.
Qed.
Lemma no_cycle_bounded : (exists v l, walk A v v l /\ walk_length A l < 0) \/ exists bound, forall x, is_flow x -> bound <= cost_of A x.
Proof using GO Ls Lt N.
  destruct (potentials n A arcs_ends) as [(v & l & _ & W & L)|P]; [left; now exists v, l|]. right. set (d := dist A n) in *. exists (d s - d t). intros x [F1 F2].
  pose proof (cost_potential n A arcs_ends d x P F2) as Q. 
  assert (BS : balance A x s = - (1)).
  { pose proof (balance_all n A arcs_ends x) as B. rewrite (sum_ext n _ (fun v => (delta s v * balance A x v) + (delta t v * 1))) in B.
    - rewrite sum_plus, !sum_delta_l in B by assumption. qlra.
    - intros v Lv. unfold delta at 1. destruct (Nat.eqb_spec s v) as [<-|Nv]; [unfold delta; destruct (Nat.eqb_spec t s); [congruence|ring]|]. rewrite F1 by auto. unfold delta. ring. }
  assert (E : sum n (fun v => d v * balance A x v) = d t - d s).
  { rewrite (sum_ext n _ (fun v => (delta t v * d v) - (delta s v * d v))).
    - rewrite sum_minus, !sum_delta_l by assumption. reflexivity.
    - intros v Lv. destruct (Nat.eq_dec v s) as [->|Nv]; [rewrite BS; unfold delta; rewrite Nat.eqb_refl; destruct (Nat.eqb_spec t s); [congruence|ring]|].
      rewrite F1 by auto. unfold delta. destruct (Nat.eqb_spec s v); [congruence|]. ring. }
  rewrite E in Q. qlra.
Qed.
End Primal.

(** ** What the solver says about it *)
Section Answers.
Variables (adjacency : list svec) (s t : nat).
Local Notation A := (arcs adjacency).
Hypothesis GO : graph_ok adjacency.
Hypothesis Ls : (s < length adjacency)%nat.
Hypothesis Lt : (t < length adjacency)%nat.
Hypothesis N : s <> t.
Variable p : provider.
Hypothesis E : shortest_path adjacency s t = Ok p.
Lemma path_provider : provider_ok p /\ p_init p = NoInit /\ p_cols p = length A /\
  (forall x, feasible p x <-> is_flow adjacency s t x) /\ forall x, objective p x = cost_of A x.
Proof using GO Ls Lt N E. destruct (primal_spec adjacency s t GO Ls Lt N) as (q & Eq & H). rewrite E in Eq. injection Eq as <-. exact H. Qed.
Lemma path_optimum r n fuel x : run r n fuel p = Ok (FiniteOptimum x) ->
  exists l, shortest A s t l /\ (forall k, In k l -> 0 < den x k) /\ objective p (den x) = walk_length A l.
Proof using GO Ls Lt N E.
  intros R. destruct path_provider as (Pok & _ & _ & F & O). destruct (run_optimum r n fuel p x Pok R) as [[F1 M] _].
  destruct (optimum_shortest adjacency s t GO Lt N (den x)) as (l & S & P & C).
  - now apply F.
  - intros y Fy. rewrite <- !O. now apply M, F.
  - exists l. repeat split; try assumption; try apply S. now rewrite O.
Qed.
Lemma path_optimum_cycle r n fuel x : run r n fuel p = Ok (FiniteOptimum x) -> forall v l, walk A v v l -> 0 <= walk_length A l.
Proof using GO Ls Lt N E.
  intros R v l W. destruct path_provider as (Pok & _ & _ & F & O). destruct (run_optimum r n fuel p x Pok R) as [[F1 M] _].
  apply (optimum_no_cycle adjacency s t (den x) v l); [now apply F| |assumption]. intros y Fy. rewrite <- !O. now apply M, F.
Qed.
Lemma path_infeasible r n fuel : run r n fuel p = Ok Infeasible -> forall l, ~ walk A s t l.
Proof using GO Ls Lt N E.
  intros R l W. destruct path_provider as (Pok & _ & _ & F & O). apply (run_infeasible r n fuel p Pok R (uses l)). apply F. now apply walk_flow.
Qed.
Lemma path_unbounded r n fuel : run r n fuel p = Ok Unbounded -> (exists l, walk A s t l) /\ exists v l, walk A v v l /\ walk_length A l < 0.
Proof using GO Ls Lt N E.
  intros R. destruct path_provider as (Pok & _ & _ & F & O). destruct (run_unbounded r n fuel p Pok R) as [[x Fx] U]. split.
  - apply F in Fx. destruct Fx as [F1 F2]. destruct (flow_walk _ A (arcs_ends adjacency GO) s t x Lt F2 F1) as (l & W & _). now exists l.
  - destruct (no_cycle_bounded adjacency s t GO Ls Lt N) as [H|[b B]]; [assumption|]. exfalso. destruct (U b) as (y & Fy & L). apply F in Fy. specialize (B y Fy). rewrite O in L. qlra.
Qed.
Lemma path_no_panic n fuel : run UseRows n fuel p <> Panic.
Proof using GO Ls Lt N E. destruct path_provider as (Pok & I & _). apply run_no_panic_rows; [assumption|]. intros l H. rewrite I in H. discriminate. Qed.
Lemma path_ends : exists fuel res, forall fuel', (fuel <= fuel')%nat -> run UseRows FirstProfitable fuel' p = Ok res.
Proof using GO Ls Lt N E.
  destruct path_provider as (Pok & I & _). apply (run_first_profitable UseRows p Pok). apply sizes_rows. intros l H. rewrite I in H. discriminate.
Qed.
End Answers.
Lemma path_exists adjacency s t : graph_ok adjacency -> (s < length adjacency)%nat -> (t < length adjacency)%nat -> s <> t -> exists p, shortest_path adjacency s t = Ok p /\ provider_ok p.
Proof. intros GO Ls Lt N. destruct (primal_spec adjacency s t GO Ls Lt N) as (p & E & P & _). now exists p. Qed.
Lemma nonneg_length A u w l : (forall k, 0 <= arc_length A k) -> walk A u w l -> 0 <= walk_length A l.
Proof. intros H. induction 1 as [|u v w len k l E W IH]; cbn [walk_length]; [qlra|]. specialize (H k). qlra. Qed.
(** the complete answer *)
Lemma path_decided adjacency s t p : graph_ok adjacency -> (s < length adjacency)%nat -> (t < length adjacency)%nat -> s <> t -> shortest_path adjacency s t = Ok p ->
  exists fuel, forall fuel', (fuel <= fuel')%nat ->
   ((exists l, walk (arcs adjacency) s t l) /\ (forall v l, walk (arcs adjacency) v v l -> 0 <= walk_length (arcs adjacency) l) ->
      exists x, run UseRows FirstProfitable fuel' p = Ok (FiniteOptimum x)) /\
   ((exists l, walk (arcs adjacency) s t l) /\ (exists v l, walk (arcs adjacency) v v l /\ walk_length (arcs adjacency) l < 0) ->
      run UseRows FirstProfitable fuel' p = Ok Unbounded) /\
   ((forall l, ~ walk (arcs adjacency) s t l) -> run UseRows FirstProfitable fuel' p = Ok Infeasible).
Proof.
  intros GO Ls Lt N E. destruct (path_ends adjacency s t GO Ls Lt N p E) as (fuel & res & H). exists fuel. intros fuel' L. specialize (H fuel' L). rewrite H. destruct res as [|x|].
  - pose proof (path_infeasible adjacency s t GO Ls Lt N p E _ _ _ H) as Q. repeat split.
    + intros ((l & W) & _). now apply Q in W.
    + intros ((l & W) & _). now apply Q in W.
  - repeat split.
    + intros _. now exists x.
    + intros (_ & v & l & W & Q). pose proof (path_optimum_cycle adjacency s t GO Ls Lt N p E _ _ _ _ H v l W). qlra.
    + intros Q. destruct (path_optimum adjacency s t GO Ls Lt N p E _ _ _ _ H) as (l & [W _] & _). now apply Q in W.
  - destruct (path_unbounded adjacency s t GO Ls Lt N p E _ _ _ H) as ((l & W) & v & l' & W' & Q). repeat split.
    + intros (_ & Q'). specialize (Q' v l' W'). qlra.
    + intros Q'. now apply Q' in W.
Qed.
