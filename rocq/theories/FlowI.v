(** * Maximum flows for whole capacities are whole *)
From Verif Require Export FlowP VertexP Whole.
Local Open Scope Qc_scope.

Lemma whole_sum n f : (forall k, (k < n)%nat -> whole (f k)) -> whole (sum n f).
Proof. induction n as [|n IH]; intros H; [apply whole_0|]. cbn [sum]. apply whole_plus; [apply IH; intros; apply H; lia|apply H; lia]. Qed.

(** ** Closed walks in a network in which the direction of the arcs does not matter *)
Section Net.
Variables (n : nat) (A : list (nat * nat * Qc)) (s t : nat).
Local Notation m := (length A).
Local Notation A2 := (residual A).
Hypothesis ends : forall f t v, In (f, t, v) A -> (f < n)%nat /\ (t < n)%nat.
Local Notation tail2 := (arc_tail (residual A)).
Local Notation head2 := (arc_head (residual A)).
(** the same arc in the other direction, and the arc without direction *)
Definition back (j : nat) : nat := if Nat.ltb j m then (m + j)%nat else (j - m)%nat.
Definition under (j : nat) : nat := if Nat.ltb j m then j else (j - m)%nat.
Lemma arc2_cases j : (j < m + m)%nat -> ((j < m)%nat /\ under j = j /\ back j = (m + j)%nat) \/ (exists k, (k < m)%nat /\ j = (m + k)%nat /\ under j = k /\ back j = k).
Proof. intros L. unfold under, back. destruct (Nat.ltb_spec j m) as [C|C]; [now left|]. right. exists (j - m)%nat. repeat split; lia. Qed.
Lemma back_ends j : (j < m + m)%nat -> (back j < m + m)%nat /\ tail2 (back j) = head2 j /\ head2 (back j) = tail2 j /\ under (back j) = under j /\ (under j < m)%nat.
Proof.
  intros L. destruct (arc2_cases j L) as [(Lj & U & ->)|(k & Lk & -> & U & ->)].
  - destruct (residual_up A j Lj) as [-> ->]. destruct (residual_down A j Lj) as [-> ->]. repeat split; try lia. rewrite U. unfold under. destruct (Nat.ltb_spec (m + j) m); lia. 
  - destruct (residual_up A k Lk) as [-> ->]. destruct (residual_down A k Lk) as [-> ->]. repeat split; try lia. rewrite U. unfold under. destruct (Nat.ltb_spec k m); lia.
Qed.
Definition netted (l : list nat) : vec := fun k => uses l k - uses l (m + k)%nat.
Lemma netted_balance u w l v : walk A2 u w l -> balance A (netted l) v = delta w v - delta u v.
Proof.
  intros W. rewrite <- (walk_balance A2 u w l v W). unfold balance. rewrite (residual_length A), sum_add, <- sum_plus. apply sum_ext. intros k L.
  destruct (residual_up A k L) as [-> ->]. destruct (residual_down A k L) as [-> ->]. unfold netted, incidence_entry. ring.
Qed.
Definition fine (l : list nat) : Prop := forall l1 i j l2, l = l1 ++ i :: j :: l2 -> under i <> under j.
Lemma fine_part l1 l2 l3 : fine (l1 ++ l2 ++ l3) -> fine l2.
Proof. intros F a i j b ->. apply (F (l1 ++ a) i j (b ++ l3)). rewrite <- !app_assoc. reflexivity. Qed.
Lemma netted_first j l : (j < m + m)%nat -> ~ In j l -> ~ In (back j) l -> netted (j :: l) (under j) <> 0.
Proof.
  intros L N1 N2. unfold netted. destruct (arc2_cases j L) as [(Lj & U & B)|(k & Lk & E & U & B)]; rewrite B in N2; rewrite U.
  - cbn [uses]. rewrite !uses_0 by assumption. unfold delta. rewrite Nat.eqb_refl. destruct (Nat.eqb_spec j (m + j)); [lia|]. intros X. discriminate X.
  - subst j. cbn [uses]. rewrite !uses_0 by assumption. unfold delta. rewrite Nat.eqb_refl. destruct (Nat.eqb_spec (m + k) k); [lia|]. intros X. discriminate X.
Qed.
Lemma heads_In l j : In j l -> In (head2 j) (map head2 l).
Proof. apply in_map. Qed.
Lemma walk2_lt u w l j : walk A2 u w l -> In j l -> (j < m + m)%nat.
Proof. intros W I. rewrite <- (residual_length A). now apply (walk_arcs A2 u w l). Qed.
(** a path without repeated vertices *)
Lemma path_nonzero u w j l : walk A2 u w (j :: l) -> NoDup (vertices A2 u (j :: l)) -> netted (j :: l) (under j) <> 0.
Proof.
  intros W ND. assert (L : (j < m + m)%nat) by (apply (walk2_lt u w (j :: l)); [assumption|now left]). unfold vertices in ND. cbn [map] in ND. inversion ND as [|? ? N1 ND1]; subst. inversion ND1 as [|? ? N2 ND2]; subst.
  inversion W as [|? ? ? ? ? ? E' W']; subst. destruct (arc_at _ _ _ _ _ E') as (_ & T & H & _).
  apply netted_first; [assumption| |].
  - intros I. apply N2. now apply heads_In.
  - intros I. apply heads_In in I. destruct (back_ends j L) as (_ & _ & B & _). rewrite B, T in I. apply N1. now right.
Qed.
(** a closed walk contains one without repeated vertices *)
Lemma closed_nonzero : forall N v l, (length l <= N)%nat -> l <> [] -> fine l -> walk A2 v v l ->
  exists l', incl l' l /\ (exists v', walk A2 v' v' l') /\ exists k, (k < m)%nat /\ netted l' k <> 0.
Proof.
  induction N as [|N IH]; intros v l Ll Nl F W; [destruct l; [congruence|cbn in Ll; lia]|].
  destruct l as [|j l]; [congruence|]. inversion W as [|? u' ? len ? ? E' W']; subst. destruct (arc_at _ _ _ _ _ E') as (Lj & T & H & _). rewrite residual_length in Lj.
  destruct (walk_splits A2 u' v l W') as [ND|(v' & l1 & l2 & l3 & -> & N2 & W1 & W2 & W3)].
  - exists (j :: l). split; [apply incl_refl|]. split; [now exists v|]. exists (under j). split; [apply (back_ends j Lj)|]. unfold vertices in ND. inversion ND as [|? ? N1 ND1]; subst. destruct (back_ends j Lj) as (LB & TB & HB & UB & _).
    apply netted_first; [assumption| |].
    + intros I. apply N1. now apply heads_In.
    + intros I. destruct l as [|i l]; [destruct I|]. inversion W' as [|? u2 ? len2 ? ? E2 W2]; subst. destruct (arc_at _ _ _ _ _ E2) as (Li & T2 & H2 & _). rewrite residual_length in Li.
      destruct I as [I|I].
      * apply (F [] j i l eq_refl). rewrite I. now symmetry.
      * (* a later arc cannot start at the first vertex *)
        destruct (in_split _ _ I) as (l1 & l2 & El). subst l. assert (Q : In (arc_head A2 j) (map head2 (i :: l1))).
        { assert (G : forall a b c q d, walk A2 a b (c :: q ++ d :: l2) -> In (tail2 d) (map head2 (c :: q))).
          { clear. intros a b c q. revert a c. induction q as [|c' q IH]; intros a c d W; inversion W as [|? ? ? ? ? ? E1 W1]; subst; destruct (arc_at _ _ _ _ _ E1) as (_ & _ & H1 & _).
            - cbn in W1. inversion W1 as [|? ? ? ? ? ? E2 W2]; subst. destruct (arc_at _ _ _ _ _ E2) as (_ & T2 & _). left. congruence.
            - right. now apply (IH _ _ _ W1). }
          rewrite <- TB. apply (G _ _ i l1 (back j) W'). }
        apply N1. cbn [map] in *. rewrite map_app. destruct Q as [Q|Q]; [now left|right; apply in_app_iff; now left].
  - destruct (IH v' l2) as (l' & I' & C' & K'); [cbn in Ll; rewrite !app_length in Ll; lia|assumption| |assumption|].
    + apply (fine_part (j :: l1) l2 l3). exact F.
    + exists l'. split; [|split; assumption]. intros x Ix. right. rewrite !in_app_iff. right. left. now apply I'.
Qed.

(** ** Arcs at which something can be moved *)
Variable loose : nat -> Prop.
Hypothesis loose_dec : forall k, {loose k} + {~ loose k}.
(** no vertex other than the source and the sink has exactly one loose arc *)
Hypothesis another : forall k v, (k < m)%nat -> loose k -> arc_tail A k = v \/ arc_head A k = v -> v <> s -> v <> t ->
  exists k', (k' < m)%nat /\ k' <> k /\ loose k' /\ (arc_tail A k' = v \/ arc_head A k' = v).
Definition at_end (v : nat) : Prop := v = s \/ v = t.
Lemma under_ends j : (j < m + m)%nat -> (tail2 j = arc_tail A (under j) \/ tail2 j = arc_head A (under j)) .
Proof.
  intros L. destruct (arc2_cases j L) as [(Lj & -> & _)|(k & Lk & -> & -> & _)].
  - left. apply (residual_up A j Lj).
  - right. apply (residual_down A k Lk).
Qed.
Lemma arc_into k v : (k < m)%nat -> arc_tail A k = v \/ arc_head A k = v -> exists j, (j < m + m)%nat /\ under j = k /\ head2 j = v.
Proof.
  intros L [E|E].
  - exists (m + k)%nat. split; [lia|]. split; [unfold under; destruct (Nat.ltb_spec (m + k) m); lia|]. rewrite <- E. apply (residual_down A k L).
  - exists k. split; [lia|]. split; [unfold under; destruct (Nat.ltb_spec k m); lia|]. rewrite <- E. apply (residual_up A k L).
Qed.
Lemma extend j0 : (j0 < m + m)%nat -> loose (under j0) -> forall N, exists u j l, walk A2 u (head2 j0) (j :: l) /\ fine (j :: l) /\ (forall i, In i (j :: l) -> loose (under i)) /\
  (at_end u \/ (N <= length (j :: l))%nat).
Proof using another ends.
  intros L0 B0. induction N as [|N (u & j & l & W & F & B & C)].
  - exists (tail2 j0), j0, []. split; [|split; [|split]].
    + econstructor; [|constructor]. apply (arc_lt n A2 (residual_ends n A ends)). now rewrite residual_length.
    + intros [|x [|y l1]] i j l2 X; discriminate X.
    + intros i [<-|[]]. assumption.
    + right. cbn. lia.
  - destruct C as [C|C]; [exists u, j, l; split; [assumption|]; split; [assumption|]; split; [assumption|now left]|].
    destruct (Nat.eq_dec u s) as [Es|Ns]; [exists u, j, l; split; [assumption|]; split; [assumption|]; split; [assumption|left; now left]|].
    destruct (Nat.eq_dec u t) as [Et|Nt]; [exists u, j, l; split; [assumption|]; split; [assumption|]; split; [assumption|left; now right]|].
    inversion W as [|? u' ? len ? ? E' W']; subst. destruct (arc_at _ _ _ _ _ E') as (Lj & T & H & _). rewrite residual_length in Lj.
    destruct (another (under j) u) as (k' & Lk & Nk & Bk & Ek); [apply (back_ends j Lj)|apply B; now left| |assumption|assumption|].
    { destruct (under_ends j Lj) as [X|X]; rewrite <- T; [left|right]; now symmetry. }
    destruct (arc_into k' u Lk Ek) as (j' & Lj' & Uj & Hj). exists (tail2 j'), j', (j :: l). split; [|split; [|split]].
    + eapply walk_go; [|exact W]. rewrite <- Hj. apply (arc_lt n A2 (residual_ends n A ends)). now rewrite residual_length.
    + intros [|x l1] i i' l2 X.
      * cbn [app] in X. injection X as X1 X2 X3. subst i i'. congruence.
      * cbn [app] in X. injection X as X1 X2. apply (F l1 i i' l2 X2).
    + intros i [<-|I]; [congruence|]. now apply B.
    + right. cbn [length] in *. lia.
Qed.
Lemma loose_arc_dec (P : nat -> Prop) (D : forall j, {P j} + {~ P j}) N : (exists j, (j < N)%nat /\ P j) \/ (forall j, (j < N)%nat -> ~ P j).
Proof.
  induction N as [|N [(j & L & H)|H]]; [right; intros; lia|left; exists j; split; [lia|assumption]|].
  destruct (D N) as [Y|Y]; [left; exists N; split; [lia|assumption]|]. right. intros j L. destruct (Nat.eq_dec j N) as [->|C]; [assumption|apply H; lia].
Qed.
Lemma at_end_dec v : {at_end v} + {~ at_end v}.
Proof. destruct (Nat.eq_dec v s) as [E|N]; [left; now left|]. destruct (Nat.eq_dec v t) as [E|N']; [left; now right|]. right. intros [X|X]; congruence. Qed.
Lemma loose_way k0 : (k0 < m)%nat -> loose k0 -> exists y, (exists k, (k < m)%nat /\ y k <> 0) /\ (forall k, (k < m)%nat -> ~ loose k -> y k = 0) /\
  forall v, v <> s -> v <> t -> balance A y v = 0.
Proof using another ends loose_dec.
  intros L0 B0.
  (* an arc that leads to the source or the sink, if there is one *)
  assert (S : exists j0, (j0 < m + m)%nat /\ loose (under j0) /\ (at_end (head2 j0) \/ forall j, (j < m + m)%nat -> loose (under j) -> ~ at_end (head2 j))).
  { destruct (loose_arc_dec (fun j => loose (under j) /\ at_end (head2 j))) with (N := (m + m)%nat) as [(j & L & H1 & H2)|H].
    - intros j. destruct (loose_dec (under j)) as [Y|Y]; [|right; tauto]. destruct (at_end_dec (head2 j)) as [Z|Z]; [left; tauto|right; tauto].
    - exists j. split; [assumption|]. split; [assumption|]. now left.
    - exists k0. split; [lia|]. assert (U : under k0 = k0) by (unfold under; destruct (Nat.ltb_spec k0 m); lia). rewrite U. split; [assumption|]. right. intros j L B E. apply (H j L). now split. }
  destruct S as (j0 & Lj0 & Bj0 & S).
  assert (Z : forall l k, (forall i, In i l -> loose (under i)) -> (k < m)%nat -> ~ loose k -> netted l k = 0).
  { intros l k B L NB. unfold netted. rewrite !uses_0; [ring| |].
    - intros I. apply NB. specialize (B _ I). unfold under in B. destruct (Nat.ltb_spec (m + k) m); [lia|]. now replace (m + k - m)%nat with k in B by lia.
    - intros I. apply NB. specialize (B _ I). unfold under in B. destruct (Nat.ltb_spec k m); [assumption|lia]. }
  destruct (extend j0 Lj0 Bj0 n) as (u & j & l & W & F & B & C).
  assert (CL : (exists v l1 l2 l3, j :: l = l1 ++ l2 ++ l3 /\ l2 <> [] /\ walk A2 u v l1 /\ walk A2 v v l2 /\ walk A2 v (head2 j0) l3) -> exists y, (exists k, (k < m)%nat /\ y k <> 0) /\ (forall k, (k < m)%nat -> ~ loose k -> y k = 0) /\
    forall v, v <> s -> v <> t -> balance A y v = 0).
  { intros (v & l1 & l2 & l3 & El & N2 & W1 & W2 & W3). destruct (closed_nonzero (length l2) v l2) as (l' & I' & [v' W'] & K'); [lia|assumption| |assumption|].
    - apply (fine_part l1 l2 l3). now rewrite <- El.
    - exists (netted l'). split; [assumption|]. split.
      + intros k L NB. apply Z; [|assumption|assumption]. intros i Hi. apply B. rewrite El, !in_app_iff. right. left. now apply I'.
      + intros x _ _. rewrite (netted_balance v' v' l' x W'). ring. }
  assert (Lj : (j < m + m)%nat) by (apply (walk2_lt u (head2 j0) (j :: l)); [assumption|now left]).
  assert (Tj : tail2 j = u) by (inversion W as [|? ? ? ? ? ? E' W']; subst; now apply arc_at in E').
  destruct C as [C|C].
  - destruct S as [S|S].
    + destruct (walk_splits A2 u _ _ W) as [ND|X]; [|now apply CL]. exists (netted (j :: l)). split; [|split].
      * exists (under j). split; [apply (back_ends j Lj)|]. now apply (path_nonzero u (head2 j0)).
      * intros k L NB. now apply Z.
      * intros v N1 N2. rewrite (netted_balance u _ _ v W). unfold delta. destruct (Nat.eqb_spec (head2 j0) v) as [X|_]; [destruct S; congruence|]. destruct (Nat.eqb_spec u v) as [X|_]; [destruct C; congruence|]. ring.
    + exfalso. destruct (back_ends j Lj) as (LB & _ & HB & UB & _). apply (S (back j) LB); [rewrite UB; apply B; now left|]. rewrite HB, Tj. assumption.
  - apply CL. apply (long_walk n A2 (residual_ends n A ends) u (head2 j0)); [|assumption|assumption]. rewrite <- Tj. apply (arc_lt n A2 (residual_ends n A ends)). now rewrite residual_length.
Qed.
End Net.

Section Answers.
Variables (adjacency : list svec) (s t : nat).
Local Notation A := (arcs adjacency).
Local Notation E := (length (arcs adjacency)).
Local Notation n := (length adjacency).
Hypothesis GO : graph_ok adjacency.
Hypothesis Ls : (s < n)%nat.
Hypothesis Lt : (t < n)%nat.
Hypothesis N : s <> t.
Variable p : provider.
Hypothesis EP : max_flow adjacency s t = Ok p.
Hypothesis whole_capacities : forall k, (k < E)%nat -> whole (arc_length A k).

Lemma entry_part x k v : whole (x k) -> whole (incidence_entry (arc_tail A k) (arc_head A k) v * x k).
Proof. intros W. unfold incidence_entry. destruct (Nat.eqb v _), (Nat.eqb v _).
  - replace ((1 - 1) * x k) with 0 by ring. apply whole_0.
  - replace ((1 - 0) * x k) with (x k) by ring. assumption.
  - replace ((0 - 1) * x k) with (- x k) by ring. now apply whole_opp.
  - replace ((0 - 0) * x k) with 0 by ring. apply whole_0.
Qed.
Lemma balanced_another x k v : balance A x v = 0 -> (k < E)%nat -> ~ whole (x k) -> arc_tail A k = v \/ arc_head A k = v ->
  exists k', (k' < E)%nat /\ k' <> k /\ ~ whole (x k') /\ (arc_tail A k' = v \/ arc_head A k' = v).
Proof using GO.
  intros B L NW I. destruct (loose_arc_dec (fun k' => k' <> k /\ ~ whole (x k') /\ (arc_tail A k' = v \/ arc_head A k' = v))) with (N := E) as [(k' & L' & H)|H]; [| |exfalso].
  - intros j. destruct (Nat.eq_dec j k); [right; tauto|]. destruct (whole_dec (x j)); [right; tauto|]. destruct (Nat.eq_dec (arc_tail A j) v); [left; tauto|]. destruct (Nat.eq_dec (arc_head A j) v); [left; tauto|right; tauto].
  - exists k'. tauto.
  - set (term := fun j => incidence_entry (arc_tail A j) (arc_head A j) v * x j).
    assert (W : whole (sum E (fun j => if Nat.eqb j k then 0 else term j))).
    { apply whole_sum. intros j Lj. destruct (Nat.eqb_spec j k) as [->|Nj]; [apply whole_0|]. destruct (whole_dec (x j)) as [Y|Y]; [now apply entry_part|]. specialize (H j Lj).
      unfold term, incidence_entry. destruct (Nat.eqb_spec v (arc_head A j)) as [X|_]; [exfalso; apply H; repeat split; try assumption; right; now symmetry|].
      destruct (Nat.eqb_spec v (arc_tail A j)) as [X|_]; [exfalso; apply H; repeat split; try assumption; left; now symmetry|]. replace ((0 - 0) * x j) with 0 by ring. apply whole_0. }
    assert (S : sum E (fun j => if Nat.eqb j k then 0 else term j) = - term k).
    { unfold balance in B. fold term in B. rewrite (sum_ext E _ (fun j => term j - delta k j * term j)).
      - rewrite sum_minus, sum_delta_l by assumption. unfold term in *. rewrite B. ring.
      - intros j _. unfold delta. rewrite (Nat.eqb_sym k j). destruct (Nat.eqb j k); ring. }
    rewrite S in W. apply whole_opp in W. replace (- - term k) with (term k) in W by ring. apply NW. unfold term, incidence_entry in W.
    assert (NL : arc_tail A k <> arc_head A k).
    { destruct (arc_lt n A (arcs_ends adjacency GO) k L) as (Q & _). apply nth_error_In in Q. apply arcs_In in Q. destruct Q as [_ Q]. intros X. rewrite X in Q. now apply (proj2 GO) in Q. }
    destruct I as [<-|<-].
    + rewrite Nat.eqb_refl in W. destruct (Nat.eqb_spec (arc_tail A k) (arc_head A k)); [congruence|]. apply whole_opp in W. replace (- ((0 - 1) * x k)) with (x k) in W by ring. assumption.
    + rewrite Nat.eqb_refl in W. destruct (Nat.eqb_spec (arc_head A k) (arc_tail A k)); [congruence|]. replace ((1 - 0) * x k) with (x k) in W by ring. assumption.
Qed.
Lemma vertex_flow_whole x : feasible p x -> vertex p x -> forall k, (k < E)%nat -> whole (x k).
Proof using GO Ls Lt N EP whole_capacities.
  intros F V k L. destruct (whole_dec (x k)) as [Y|Y]; [assumption|]. exfalso.
  destruct (proj1 (flow_feasible adjacency s t GO Ls Lt N p EP x) F) as (F1 & F2 & _).
  destruct (loose_way n A s t (arcs_ends adjacency GO) (fun k => ~ whole (x k))) with (k0 := k) as (y & (k1 & L1 & N1) & Z & B).
  - intros j. destruct (whole_dec (x j)); [right; tauto|now left].
  - intros j v Lj NW I Ns Nt. apply (balanced_another x j v); try assumption. apply F1; try assumption. destruct (arc_lt n A (arcs_ends adjacency GO) j Lj) as (_ & T1 & T2). destruct I as [<-|<-]; assumption.
  - assumption.
  - assumption.
  - set (z := fun j => if Nat.ltb j E then y j else - y (j - E)%nat). apply N1.
    assert (Z1 : forall j, (j < E)%nat -> z j = y j) by (intros j Lj; unfold z; now rewrite (proj2 (Nat.ltb_lt _ _) Lj)).
    assert (Z2 : forall j, z (E + j)%nat = - y j) by (intros j; unfold z; rewrite (proj2 (Nat.ltb_ge _ _)) by lia; do 2 f_equal; lia).
    rewrite <- Z1 by assumption. destruct (flow_sums adjacency s t GO Ls Lt N p EP z) as (R & C & S1 & S2). apply V.
    + rewrite C. intros j Lj X. destruct (Nat.lt_ge_cases j E) as [Cj|Cj].
      * rewrite Z1 by assumption. apply Z; [assumption|]. intros Q. apply Q. rewrite X. apply whole_0.
      * replace j with (E + (j - E))%nat in * by lia. set (i := (j - E)%nat) in *. assert (Li : (i < E)%nat) by lia. rewrite Z2. rewrite (Z i Li); [ring|]. intros Q. apply Q.
        specialize (F2 i Li). rewrite X in F2. replace (x i) with (arc_length A i) by (rewrite <- F2; ring). now apply whole_capacities.
    + rewrite R, C. intros i Li. destruct (Nat.lt_ge_cases i (n - 2)) as [Ci|Ci].
      * rewrite S1 by assumption. destruct (vertex_In adjacency s t Ls Lt N i Ci) as (_ & V1 & V2). rewrite (balance_ext A z y) by assumption. now apply B.
      * replace i with (n - 2 + (i - (n - 2)))%nat by lia. rewrite S2 by lia. rewrite Z2, Z1 by lia. ring.
    + rewrite C. lia.
Qed.
Lemma flow_whole : (forall k, (k < E)%nat -> 0 <= arc_length A k) -> (forall v, (v < n)%nat -> joined A s t v) ->
  forall r rl fuel x, run r rl fuel p = Ok (FiniteOptimum x) -> forall j, whole (den x j).
Proof using GO Ls Lt N EP whole_capacities.
  intros C J r rl fuel x R j. destruct (flow_provider adjacency s t GO Ls Lt N C p EP J) as (Pok & _). destruct (run_optimum r rl fuel p x Pok R) as [[F _] Wf]. destruct (run_vertex r rl fuel p x Pok R) as [V _].
  pose proof (vertex_flow_whole (den x) F V) as W. destruct (proj1 (flow_feasible adjacency s t GO Ls Lt N p EP (den x)) F) as (_ & F2 & _). destruct (flow_sums adjacency s t GO Ls Lt N p EP (den x)) as (_ & Cp & _).
  destruct (Nat.lt_ge_cases j E) as [L|L]; [now apply W|]. destruct (Nat.lt_ge_cases j (E + E)) as [L2|L2].
  - replace j with (E + (j - E))%nat by lia. specialize (F2 (j - E)%nat ltac:(lia)). replace (den x (E + (j - E))%nat) with (arc_length A (j - E) - den x (j - E)%nat) by (rewrite <- F2; ring).
    apply whole_minus; [apply whole_capacities; lia|apply W; lia].
  - rewrite (den_above 0 (p_cols p)); [apply whole_0|assumption|lia].
Qed.
End Answers.
