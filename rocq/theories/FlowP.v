(** * Maximum flows *)
From Verif Require Export SpecFlow PathP.
From Verif Require Import SolverQ.
Local Open Scope Qc_scope.

(** ** The arcs that leave a vertex have consecutive numbers *)
Section Flat.
Context {B : Type} (F : nat -> list B).
Definition off (a f : nat) : nat := list_sum (map (fun g => length (F g)) (seq a (f - a))).
Lemma off_S a f : (a <= f)%nat -> off a (S f) = (off a f + length (F f))%nat.
Proof.
  intros L. unfold off. replace (S f - a)%nat with (S (f - a)) by lia. rewrite seq_S, map_app, list_sum_app. cbn. replace (a + (f - a))%nat with f by lia. lia.
Qed.
Lemma off_mono a f g : (a <= f <= g)%nat -> (off a f <= off a g)%nat.
Proof. intros [L1 L2]. induction L2 as [|g L2 IH]; [lia|]. rewrite off_S by lia. lia. Qed.
Lemma flat_length : forall n a, length (flat_map F (seq a n)) = off a (a + n).
Proof.
  intros n a. unfold off. replace (a + n - a)%nat with n by lia. revert a. induction n as [|n IH]; intros a; [reflexivity|]. cbn. rewrite app_length, IH. reflexivity.
Qed.
Lemma flat_nth n a : forall k z, nth_error (flat_map F (seq a n)) k = Some z -> exists f, (a <= f < a + n)%nat /\ In z (F f) /\ (off a f <= k < off a (S f))%nat.
Proof.
  induction n as [|n IH]; intros k z E; [cbn in E; destruct k; discriminate|]. rewrite seq_S, flat_map_app in E. cbn [flat_map] in E. rewrite app_nil_r in E.
  destruct (Nat.lt_ge_cases k (length (flat_map F (seq a n)))) as [L|L].
  - rewrite nth_error_app1 in E by assumption. destruct (IH k z E) as (f & H1 & H2 & H3). exists f. repeat split; try lia; assumption.
  - rewrite nth_error_app2 in E by assumption. rewrite flat_length in *. exists (a + n)%nat. split; [lia|]. split; [now apply nth_error_In in E|].
    rewrite off_S by lia. assert (Q : (k - off a (a + n) < length (F (a + n)%nat))%nat) by (apply nth_error_Some; congruence). lia.
Qed.
End Flat.
Lemma firstn_nths {B} (l : list (list B)) s : (s <= length l)%nat -> firstn s l = map (fun g => nth g l []) (seq 0 s).
Proof.
  revert s. induction l as [|x l IH]; intros [|s] L; cbn in *; try reflexivity; try lia. f_equal. rewrite IH by lia. rewrite <- seq_shift, map_map. reflexivity.
Qed.
Section Range.
Variable adjacency : list svec.
Local Notation A := (arcs adjacency).
Definition arcs_before (s : nat) : nat := list_sum (map (@length _) (firstn s adjacency)).
Let F := fun from => map (fun '(to, v) => (from, to, v)) (nth from adjacency [] : svec).
Lemma before_off s : (s <= length adjacency)%nat -> arcs_before s = off F 0 s.
Proof.
  intros L. unfold arcs_before, off. rewrite firstn_nths by assumption. rewrite map_map, Nat.sub_0_r. f_equal. apply map_ext. intros g. unfold F. now rewrite map_length.
Qed.
Lemma tail_range s k : (s < length adjacency)%nat -> (k < length A)%nat -> (arc_tail A k = s <-> (arcs_before s <= k < arcs_before s + length (nth s adjacency []))%nat).
Proof.
  intros Ls Lk. destruct (nth_error A k) as [[[f u] v]|] eqn:E; [|apply nth_error_None in E; lia]. destruct (arc_at A k f u v E) as (_ & -> & _ & _).
  destruct (flat_nth F (length adjacency) 0 k (f, u, v) E) as (g & Lg & I & H). assert (g = f) as ->. { apply in_map_iff in I. destruct I as ([u' v'] & X & _). congruence. }
  rewrite before_off by lia. assert (LS : length (nth s adjacency []) = length (F s)) by (unfold F; now rewrite map_length). rewrite LS, <- off_S by lia. split; [intros <-; assumption|].
  intros H'. destruct (Nat.lt_trichotomy f s) as [C|[C|C]]; [exfalso|assumption|exfalso].
  - pose proof (off_mono F 0 (S f) s). lia.
  - pose proof (off_mono F 0 (S s) f). lia.
Qed.
Lemma range_lt s : (s < length adjacency)%nat -> (arcs_before s + length (nth s adjacency []) <= length A)%nat.
Proof.
  intros L. rewrite before_off by lia. assert (LS : length (nth s adjacency []) = length (F s)) by (unfold F; now rewrite map_length). rewrite LS, <- off_S by lia.
  unfold arcs. fold F. rewrite flat_length. apply off_mono. lia.
Qed.
End Range.

(** ** Balances *)
Lemma balance_flows A x v : balance A x v = entering A x v - leaving A x v.
Proof.
  unfold balance, entering, leaving. rewrite <- sum_minus. apply sum_ext. intros k _. unfold incidence_entry. rewrite (Nat.eqb_sym v), (Nat.eqb_sym v).
  destruct (Nat.eqb _ _), (Nat.eqb _ _); ring.
Qed.

Section MaxFlow.
Variables (adjacency : list svec) (s t : nat).
Local Notation n := (length adjacency).
Local Notation A := (arcs adjacency).
Local Notation E := (length A).
Hypothesis GO : graph_ok adjacency.
Hypothesis Ls : (s < n)%nat.
Hypothesis Lt : (t < n)%nat.
Hypothesis N : s <> t.
Hypothesis capacities : forall k, (k < E)%nat -> 0 <= arc_length A k.
Local Notation c := (n - 2)%nat.
Local Notation vertex i := (nth i (kept n [s; t]) 0%nat).
Lemma ND2 : NoDup [s; t].
Proof using N. constructor; [intros [X|[]]; congruence|]. constructor; [intros []|constructor]. Qed.
Lemma kept2 : length (kept n [s; t]) = c.
Proof using N Ls Lt. apply (kept_length n [s; t]). split; [apply ND2|]. intros r [<-|[<-|[]]]; assumption. Qed.
Lemma vertex_In i : (i < c)%nat -> (vertex i < n)%nat /\ vertex i <> s /\ vertex i <> t.
Proof using N Ls Lt.
  intros Li. assert (I : In (vertex i) (kept n [s; t])) by (apply nth_In; rewrite kept2; assumption). apply kept_In in I. destruct I as [I1 I2].
  split; [assumption|]. split; intros X; apply I2; [left|right; left]; now symmetry.
Qed.
Lemma vertex_row v : (v < n)%nat -> v <> s -> v <> t -> exists i, (i < c)%nat /\ vertex i = v.
Proof using N Ls Lt.
  intros L N1 N2. assert (I : In v (kept n [s; t])) by (apply kept_In; split; [assumption|intros [X|[X|[]]]; congruence]). apply (In_nth _ _ 0%nat) in I. destruct I as (i & Li & Ei). rewrite kept2 in Li. now exists i.
Qed.

(** everything the proofs need to know about the program *)
Lemma flow_program : exists p, max_flow adjacency s t = Ok p /\ p_rows p = (c + E)%nat /\ p_cols p = (E + E)%nat /\ length (p_rhs p) = (c + E)%nat /\
  (forall i, (i < c)%nat -> nthq (p_rhs p) i = 0) /\ (forall k, (k < E)%nat -> nthq (p_rhs p) (c + k) = arc_length A k) /\
  (forall j, (j < E)%nat -> wfs (c + E) (p_col p j) /\
     (forall i, (i < c)%nat -> den (p_col p j) i = incidence_entry (arc_tail A j) (arc_head A j) (vertex i)) /\ forall k, den (p_col p j) (c + k) = delta j k) /\
  (forall j, (j < E)%nat -> p_col p (E + j) = sbasis (c + j)) /\
  (forall j, (j < E)%nat -> p_cost p j = if Nat.eqb (arc_tail A j) s then - (1) else 0) /\ (forall j, (j < E)%nat -> p_cost p (E + j) = 0) /\
  p_init p = PartialInit (map (fun j => ((j + c)%nat, (E + j)%nat)) (seq 0 E)) /\
  (forall j, (j < E + E)%nat -> p_filtered p [] j = p_col p j).
Proof using GO Ls Lt N.
  destruct GO as [G1 G2]. destruct (incidence_spec adjacency [s; t] G1 G2) as (im & cost & EI & R & V & ED & C & H).
  { apply ND2. } { intros r [<-|[<-|[]]]; assumption. }
  unfold max_flow. destruct (Nat.ltb_spec n s) as [X|_]; [lia|]. unfold index. rewrite (nth_error_nth' adjacency [] Ls). cbn [ofopt bind]. rewrite EI. cbn [bind]. rewrite V.
  destruct (Nat.ltb_spec n 2) as [X|_]; [lia|]. rewrite ED. eexists. split; [reflexivity|]. cbn [p_rows p_cols p_rhs p_col p_cost p_init p_filtered]. cbn [length] in R.
  assert (AT : forall k, (k < E)%nat -> nth_error A k = Some (arc_tail A k, arc_head A k, arc_length A k)) by (intros k L; now apply (arc_lt n A (arcs_ends adjacency GO) k)).
  assert (LC : length cost = E) by (rewrite C; apply map_length).
  split; [reflexivity|]. split; [reflexivity|]. split; [now rewrite app_length, repeat_length, LC|]. split; [|split; [|split; [|split; [|split; [|split; [|split]]]]]].
  - intros i Li. unfold nthq. rewrite app_nth1 by (now rewrite repeat_length). apply nth_repeat.
  - intros k Lk. unfold nthq. rewrite app_nth2, repeat_length by (rewrite repeat_length; lia). replace (c + k - c)%nat with k by lia. rewrite C. unfold arc_length. pose proof (AT k Lk) as Q. rewrite Q.
    now rewrite (nth_error_nth _ _ _ (map_nth_error snd _ _ Q)).
  - intros j Lj. unfold flow_column. rewrite ED. destruct (Nat.ltb_spec j E) as [_|X]; [|lia]. destruct (H j _ _ _ (AT j Lj)) as [W D]. rewrite R in W, D. cbn [arc_value].
    split; [|split].
    + apply fwf_app with c; [assumption| |lia|lia]. cbn. repeat split; try lia. discriminate.
    + intros i Li. rewrite den_app, D by assumption. cbn [den]. destruct (Nat.eqb_spec i (c + j)); [lia|ring].
    + intros k. rewrite den_app, (den_above 0 c _ (c + k) W) by lia. cbn [den]. unfold delta. destruct (Nat.eqb_spec (c + k) (c + j)), (Nat.eqb_spec j k); try lia; ring.
  - intros j Lj. unfold flow_column. rewrite ED. destruct (Nat.ltb_spec (E + j) E) as [X|_]; [lia|]. unfold sbasis. do 2 f_equal. lia.
  - intros j Lj. fold (arcs_before adjacency s). pose proof (tail_range adjacency s j Ls Lj) as Q. destruct (Nat.eqb_spec (arc_tail A j) s) as [X|X].
    + apply Q in X. destruct (Nat.leb_spec (arcs_before adjacency s) j), (Nat.ltb_spec j (arcs_before adjacency s + length (nth s adjacency []))); try lia; reflexivity.
    + destruct (Nat.leb_spec (arcs_before adjacency s) j), (Nat.ltb_spec j (arcs_before adjacency s + length (nth s adjacency []))); try reflexivity. exfalso. apply X, Q. lia.
  - intros j Lj. fold (arcs_before adjacency s). pose proof (range_lt adjacency s Ls). destruct (Nat.ltb_spec (E + j) (arcs_before adjacency s + length (nth s adjacency []))); [lia|]. now rewrite andb_false_r.
  - reflexivity.
  - intros j Lj. unfold flow_filtered, flow_column. destruct (Nat.ltb j (im_edges im)); [|reflexivity]. f_equal. rewrite arc_filter_spec. unfold sremove. cbn [memb existsb negb].
    rewrite (filter_ext _ (fun _ => true)) by (intros [? ?]; reflexivity). induction (arc_entries (im_column im j)) as [|[i v] l IH]; [reflexivity|]. cbn [filter map]. rewrite IH. f_equal. f_equal. unfold count_below. cbn. lia.
Qed.

Section Program.
Variable p : provider.
Hypothesis EP : max_flow adjacency s t = Ok p.
Lemma flow_sums x : p_rows p = (c + E)%nat /\ p_cols p = (E + E)%nat /\
  (forall i, (i < c)%nat -> sum (E + E) (fun j => den (p_col p j) i * x j) = balance A x (vertex i)) /\
  forall k, (k < E)%nat -> sum (E + E) (fun j => den (p_col p j) (c + k)%nat * x j) = x k + x (E + k)%nat.
Proof using GO Ls Lt N EP.
  destruct flow_program as (q & Eq & R & C & _ & B1 & B2 & A1 & A2 & _). rewrite EP in Eq. injection Eq as <-.
  assert (X1 : forall i, (i < c)%nat -> sum (E + E) (fun j => den (p_col p j) i * x j) = balance A x (vertex i)).
  { intros i Li. rewrite sum_add, (sum_zero E (fun j => den (p_col p (E + j)) i * x (E + j)%nat)).
    - rewrite Qcplus_0_r. apply sum_ext. intros j Lj. destruct (A1 j Lj) as (_ & D & _). now rewrite D.
    - intros j Lj. rewrite A2 by assumption. rewrite den_sbasis. unfold delta. destruct (Nat.eqb_spec (c + j) i); [lia|ring]. }
  assert (X2 : forall k, (k < E)%nat -> sum (E + E) (fun j => den (p_col p j) (c + k) * x j) = x k + x (E + k)%nat).
  { intros k Lk. rewrite sum_add. f_equal.
    - rewrite (sum_ext E _ (fun j => x j * delta j k)) by (intros j Lj; destruct (A1 j Lj) as (_ & _ & D); rewrite D; ring). now apply sum_delta_r.
    - rewrite (sum_ext E _ (fun j => x (E + j)%nat * delta j k)); [apply (sum_delta_r E k (fun j => x (E + j)%nat) Lk)|].
      intros j Lj. rewrite A2, den_sbasis by assumption. unfold delta. destruct (Nat.eqb_spec (c + j) (c + k)), (Nat.eqb_spec j k); try lia; ring. }
  repeat split; assumption.
Qed.
Lemma flow_feasible x : feasible p x <-> (forall v, (v < n)%nat -> v <> s -> v <> t -> balance A x v = 0) /\
  (forall k, (k < E)%nat -> x k + x (E + k)%nat = arc_length A k) /\ forall j, (j < E + E)%nat -> 0 <= x j.
Proof using GO Ls Lt N EP.
  destruct flow_program as (q & Eq & R & C & _ & B1 & B2 & A1 & A2 & _). rewrite EP in Eq. injection Eq as <-. unfold feasible. rewrite R, C. destruct (flow_sums x) as (_ & _ & X1 & X2).
  split.
  - intros [F1 F2]. split; [|split; [|assumption]].
    + intros v Lv N1 N2. destruct (vertex_row v Lv N1 N2) as (i & Li & Ei). rewrite <- Ei, <- X1 by assumption. rewrite F1 by lia. now apply B1.
    + intros k Lk. rewrite <- X2 by assumption. rewrite F1 by lia. now apply B2.
  - intros (F1 & F2 & F3). split; [|assumption]. intros i Li. destruct (Nat.lt_ge_cases i c) as [L|L].
    + rewrite X1, B1 by assumption. destruct (vertex_In i L) as (V1 & V2 & V3). now apply F1.
    + replace i with (c + (i - c))%nat by lia. rewrite X2, B2 by lia. apply F2. lia.
Qed.
Lemma flow_objective x : objective p x = - leaving A x s.
Proof using GO Ls Lt N EP.
  destruct flow_program as (q & Eq & R & C & _ & _ & _ & _ & _ & C1 & C2 & _). rewrite EP in Eq. injection Eq as <-. unfold objective, leaving. rewrite C, sum_add.
  rewrite (sum_zero E (fun j => p_cost p (E + j) * x (E + j)%nat)) by (intros j Lj; rewrite C2 by assumption; ring). rewrite Qcplus_0_r, <- sum_opp. apply sum_ext. intros j Lj. rewrite C1 by assumption.
  destruct (Nat.eqb _ _); ring.
Qed.
Lemma outside_balance x v : (n <= v)%nat -> entering A x v = 0 /\ leaving A x v = 0.
Proof using GO.
  clear - GO. intros L. split; apply sum_zero; intros k Lk; destruct (arc_lt n A (arcs_ends adjacency GO) k Lk) as (_ & H1 & H2).
  all: try (destruct (Nat.eqb_spec (arc_head A k) v); [lia|reflexivity]).
  all: destruct (Nat.eqb_spec (arc_tail A k) v); [lia|reflexivity].
Qed.
Lemma feasible_flow x : feasible p x -> flow A s t x.
Proof using GO Ls Lt N EP.
  intros F. apply flow_feasible in F. destruct F as (F1 & F2 & F3). split.
  - intros k Lk. pose proof (F3 k). pose proof (F3 (E + k)%nat). specialize (F2 k Lk). assert (0 <= x k) by (apply F3; lia). assert (0 <= x (E + k)%nat) by (apply F3; lia). split; qlra.
  - intros v N1 N2. destruct (Nat.lt_ge_cases v n) as [L|L]; [|destruct (outside_balance x v L) as [-> ->]; reflexivity]. specialize (F1 v L N1 N2). rewrite balance_flows in F1. qlra.
Qed.
Definition with_slack (x : vec) : vec := fun j => if Nat.ltb j E then x j else arc_length A (j - E) - x (j - E)%nat.
Lemma leaving_ext x y v : (forall k, (k < E)%nat -> x k = y k) -> leaving A x v = leaving A y v.
Proof using. intros H. apply sum_ext. intros k L. now rewrite H. Qed.
Lemma with_slack_arc x k : (k < E)%nat -> with_slack x k = x k.
Proof using. clear. intros L. unfold with_slack. destruct (Nat.ltb_spec k E); [reflexivity|lia]. Qed.
Lemma flow_feasible_slack x : flow A s t x -> feasible p (with_slack x).
Proof using GO Ls Lt N EP.
  intros [F1 F2]. apply flow_feasible. split; [|split].
  - intros v Lv N1 N2. rewrite (balance_ext A (with_slack x) x v) by (intros; now apply with_slack_arc). rewrite balance_flows, (F2 v N1 N2). ring.
  - intros k Lk. rewrite with_slack_arc by assumption. unfold with_slack. destruct (Nat.ltb_spec (E + k) E); [lia|]. replace (E + k - E)%nat with k by lia. ring.
  - intros j Lj. unfold with_slack. destruct (Nat.ltb_spec j E) as [L|L]; [now apply F1|]. destruct (F1 (j - E)%nat) as [_ Q]; [lia|]. qlra.
Qed.
Lemma feasible_zero : feasible p (with_slack (fun _ => 0)).
Proof using GO Ls Lt N EP capacities.
  apply flow_feasible_slack. split; [intros k L; split; [qlra|now apply capacities]|]. intros v _ _. unfold entering, leaving. rewrite !sum_zero; [reflexivity|intros; now destruct (Nat.eqb _ _)|intros; now destruct (Nat.eqb _ _)].
Qed.

(** ** No row is redundant when every vertex is joined to the source or the sink *)
Hypothesis connected : forall v, (v < n)%nat -> joined A s t v.
Lemma flow_rows rm : redundant p rm -> rm = [].
Proof using GO Ls Lt N EP connected.
  destruct flow_program as (q & Eq & R & C & _ & _ & _ & A1 & A2 & _). rewrite EP in Eq. injection Eq as <-. intros [_ H]. destruct rm as [|i rm]; [reflexivity|exfalso].
  destruct (H i) as (Li & y & Y1 & _ & Y2 & _); [now left|]. rewrite R, C in *.
  assert (Z : forall j, (j < E)%nat -> y (c + j)%nat = 0).
  { intros j Lj. assert (L : (E + j < E + E)%nat) by lia. specialize (Y2 (E + j)%nat L). rewrite A2 in Y2 by assumption.
    rewrite (sum_ext _ _ (fun r => delta (c + j) r * y r)) in Y2 by (intros; rewrite den_sbasis; ring). rewrite sum_delta_l in Y2 by lia. assumption. }
  set (z := fun v => if Nat.eqb v s || Nat.eqb v t then 0 else y (pos [s; t] v)).
  assert (ZV : forall r, (r < c)%nat -> z (vertex r) = y r).
  { intros r Lr. destruct (vertex_In r Lr) as (_ & V1 & V2). unfold z. destruct (Nat.eqb_spec (vertex r) s); [congruence|]. destruct (Nat.eqb_spec (vertex r) t); [congruence|]. cbn [orb].
    rewrite pos_nth; [reflexivity|apply ND2|rewrite kept2; assumption]. }
  assert (ST : forall j, (j < E)%nat -> z (arc_tail A j) = z (arc_head A j)).
  { intros j Lj. assert (L : (j < E + E)%nat) by lia. specialize (Y2 j L). rewrite sum_add in Y2. destruct (A1 j Lj) as (_ & D1 & D2).
    rewrite (sum_zero E) in Y2 by (intros k Lk; rewrite Z by assumption; ring). rewrite Qcplus_0_r in Y2.
    rewrite (sum_ext c _ (fun r => z (vertex r) * incidence_entry (arc_tail A j) (arc_head A j) (vertex r))) in Y2 by (intros r Lr; rewrite ZV, D1 by assumption; reflexivity).
    destruct (arc_lt n A (arcs_ends adjacency GO) j Lj) as (_ & T1 & T2).
    assert (ONE : forall v, (v < n)%nat -> sum c (fun r => z (vertex r) * (if Nat.eqb (vertex r) v then 1 else 0)) = z v).
    { intros v Lv. destruct (Nat.eq_dec v s) as [->|N1]; [|destruct (Nat.eq_dec v t) as [->|N2]].
      - rewrite sum_zero; [unfold z; now rewrite Nat.eqb_refl|]. intros r Lr. destruct (vertex_In r Lr) as (_ & V1 & V2). destruct (Nat.eqb_spec (vertex r) s); [congruence|ring].
      - rewrite sum_zero; [unfold z; now rewrite Nat.eqb_refl, orb_true_r|]. intros r Lr. destruct (vertex_In r Lr) as (_ & V1 & V2). destruct (Nat.eqb_spec (vertex r) t); [congruence|ring].
      - destruct (vertex_row v Lv N1 N2) as (i0 & L0 & E0). rewrite (sum_ext c _ (fun r => delta i0 r * z (vertex r))); [rewrite sum_delta_l by assumption; now rewrite E0|].
        intros r Lr. unfold delta. destruct (Nat.eqb_spec (vertex r) v) as [E1|E1], (Nat.eqb_spec i0 r) as [E2|E2]; try ring; exfalso.
        + apply E2. rewrite <- E0 in E1. rewrite <- (pos_nth n [s; t] i0), <- (pos_nth n [s; t] r), E1 by (try apply ND2; rewrite kept2; assumption). reflexivity.
        + apply E1. now rewrite <- E2. }
    unfold incidence_entry in Y2. rewrite (sum_ext c _ (fun r => z (vertex r) * (if Nat.eqb (vertex r) (arc_head A j) then 1 else 0) - z (vertex r) * (if Nat.eqb (vertex r) (arc_tail A j) then 1 else 0))) in Y2 by (intros; ring).
    rewrite sum_minus, !ONE in Y2 by assumption. qlra. }
  assert (ALL : forall v, joined A s t v -> z v = 0).
  { induction 1 as [| |k Lk J IH|k Lk J IH]; [unfold z; now rewrite Nat.eqb_refl|unfold z; now rewrite Nat.eqb_refl, orb_true_r| |].
    - now rewrite <- ST.
    - now rewrite ST. }
  destruct (Nat.lt_ge_cases i c) as [L|L].
  - rewrite <- (ZV i L), ALL in Y1 by (apply connected, vertex_In, L). discriminate.
  - replace i with (c + (i - c))%nat in Y1 by lia. rewrite Z in Y1 by lia. discriminate.
Qed.
Lemma flow_provider : provider_ok p /\ (forall l, p_init p <> FullInit l) /\ p_rows p = (c + E)%nat.
Proof using GO Ls Lt N EP connected capacities.
  pose proof flow_rows as RW. destruct flow_program as (q & Eq & R & C & LR & B1 & B2 & A1 & A2 & _ & _ & I & FL). rewrite EP in Eq. injection Eq as <-. split; [|split; [intros l X; rewrite I in X; discriminate|assumption]].
  constructor.
  - now rewrite R.
  - intros i Li. rewrite R in Li. destruct (Nat.lt_ge_cases i c) as [L|L]; [rewrite B1 by assumption; qlra|]. replace i with (c + (i - c))%nat by lia. rewrite B2 by lia. apply capacities. lia.
  - intros j Lj. rewrite C in Lj. rewrite R. destruct (Nat.lt_ge_cases j E) as [L|L]; [now apply A1|]. replace j with (E + (j - E))%nat by lia. rewrite A2 by lia. cbn. repeat split; try lia. discriminate.
  - unfold init_ok. rewrite I, R, C. split.
    + rewrite map_map. cbn [fst]. assert (Q : forall k a lo, (lo <= a + c)%nat -> increasing_from lo (map (fun j => (j + c)%nat) (seq a k))).
      { induction k as [|k IH]; intros a lo L; [exact Logic.I|]. cbn. split; [lia|]. apply IH. lia. }
      apply Q. lia.
    + intros r j Hin. apply in_map_iff in Hin. destruct Hin as (k & X & Hk). injection X as <- <-. apply in_seq in Hk. split; [lia|]. split; [lia|]. rewrite A2 by lia. f_equal. lia.
  - intros rm j _ RD Lj. apply RW in RD. subst rm. rewrite C in Lj. rewrite FL by assumption. unfold sremove. cbn [memb existsb negb].
    induction (p_col p j) as [|[i v] l IH]; [reflexivity|]. cbn [filter map]. rewrite <- IH. f_equal. f_equal. unfold count_below. cbn. lia.
Qed.
End Program.
End MaxFlow.

(** ** The answers *)
Section Answers.
Variables (adjacency : list svec) (s t : nat).
Local Notation A := (arcs adjacency).
Hypothesis GO : graph_ok adjacency.
Hypothesis Ls : (s < length adjacency)%nat.
Hypothesis Lt : (t < length adjacency)%nat.
Hypothesis N : s <> t.
Hypothesis capacities : forall k, (k < length A)%nat -> 0 <= arc_length A k.
Hypothesis connected : forall v, (v < length adjacency)%nat -> joined A s t v.
Lemma flow_exists : exists p, max_flow adjacency s t = Ok p /\ provider_ok p.
Proof using All.
  destruct (flow_program adjacency s t GO Ls Lt N) as (p & E & _). exists p. split; [assumption|]. now apply (flow_provider adjacency s t GO Ls Lt N capacities p E connected).
Qed.
Variable p : provider.
Hypothesis E : max_flow adjacency s t = Ok p.
Lemma flow_optimum : (forall k, (k < length A)%nat -> arc_head A k <> s) -> forall r n fuel x, run r n fuel p = Ok (FiniteOptimum x) ->
  maximum_flow A s t (den x) /\ flow_value A s (den x) = - objective p (den x).
Proof using All.
  intros NI r n fuel x R. destruct (flow_provider adjacency s t GO Ls Lt N capacities p E connected) as (Pok & _). destruct (run_optimum r n fuel p x Pok R) as [[F M] _].
  assert (V : forall y, flow_value A s y = leaving A y s).
  { intros y. unfold flow_value. assert (Z : entering A y s = 0); [|rewrite Z; ring]. apply sum_zero. intros k L. specialize (NI k L). destruct (Nat.eqb_spec (arc_head A k) s); [congruence|reflexivity]. }
  split; [|rewrite V, (flow_objective adjacency s t GO Ls Lt N p E); ring]. split; [now apply (feasible_flow adjacency s t GO Ls Lt N p E)|].
  intros y Fy. specialize (M _ (flow_feasible_slack adjacency s t GO Ls Lt N p E y Fy)). rewrite !(flow_objective adjacency s t GO Ls Lt N p E) in M. rewrite !V.
  rewrite (leaving_ext adjacency (with_slack adjacency y) y) in M by (intros; now apply (with_slack_arc adjacency)). qlra.
Qed.
Lemma flow_not_infeasible r n fuel : run r n fuel p <> Ok Infeasible.
Proof using All.
  intros R. destruct (flow_provider adjacency s t GO Ls Lt N capacities p E connected) as (Pok & _). 
  exact (run_infeasible r n fuel p Pok R _ (feasible_zero adjacency s t GO Ls Lt N capacities p E)).
Qed.
Lemma flow_not_unbounded r n fuel : run r n fuel p <> Ok Unbounded.
Proof using All.
  intros R. destruct (flow_provider adjacency s t GO Ls Lt N capacities p E connected) as (Pok & _). destruct (run_unbounded r n fuel p Pok R) as [_ U].
  destruct (U (- leaving A (arc_length A) s)) as (y & Fy & L). rewrite (flow_objective adjacency s t GO Ls Lt N p E) in L. apply (feasible_flow adjacency s t GO Ls Lt N p E) in Fy. destruct Fy as [Fy _].
  assert (Q : leaving A y s <= leaving A (arc_length A) s); [|qlra]. apply sum_le. intros k Lk. destruct (Nat.eqb _ _); [now apply Fy|qlra].
Qed.
Lemma flow_sizes : (2 <= length adjacency - 2 + length A)%nat -> (2 <= p_rows p)%nat /\ forall rm, redundant p rm -> (length rm + 2 <= p_rows p)%nat.
Proof using All.
  intros L. destruct (flow_provider adjacency s t GO Ls Lt N capacities p E connected) as (_ & _ & R). rewrite R. split; [assumption|]. intros rm RD.
  apply (flow_rows adjacency s t GO Ls Lt N p E connected) in RD. subst rm. assumption.
Qed.
Lemma flow_no_panic r n fuel : (r = UseLU -> (2 <= length adjacency - 2 + length A)%nat) -> run r n fuel p <> Panic.
Proof using All.
  intros L. destruct (flow_provider adjacency s t GO Ls Lt N capacities p E connected) as (Pok & I & _). destruct r.
  - destruct (flow_sizes (L eq_refl)). now apply run_no_panic_lu.
  - apply run_no_panic_rows; [assumption|]. intros l H. now apply I in H.
Qed.
Lemma flow_decided r : (r = UseLU -> (2 <= length adjacency - 2 + length A)%nat) ->
  exists fuel x, forall fuel', (fuel <= fuel')%nat -> run r FirstProfitable fuel' p = Ok (FiniteOptimum x).
Proof using All.
  intros L. destruct (flow_provider adjacency s t GO Ls Lt N capacities p E connected) as (Pok & I & _).
  assert (H : exists fuel res, forall fuel', (fuel <= fuel')%nat -> run r FirstProfitable fuel' p = Ok res).
  { apply (run_first_profitable r p Pok). destruct r; [|apply sizes_rows; intros l H; now apply I in H]. destruct (flow_sizes (L eq_refl)). now apply sizes_lu. }
  destruct H as (fuel & res & H). pose proof (H fuel (le_n _)) as H0. destruct res as [|x|].
  - now apply flow_not_infeasible in H0.
  - now exists fuel, x.
  - now apply flow_not_unbounded in H0.
Qed.
End Answers.

(** ** Cuts *)
Section Cuts.
Variables (n : nat) (A : list (nat * nat * Qc)) (s t : nat).
Hypothesis ends : forall f t v, In (f, t, v) A -> (f < n)%nat /\ (t < n)%nat.
Hypothesis Ls : (s < n)%nat.
Local Notation m := (length A).
Lemma value_balance x : flow_value A s x = - balance A x s.
Proof. unfold flow_value. rewrite balance_flows. ring. Qed.
Lemma value_across x r : flow A s t x -> r s = true -> r t = false ->
  flow_value A s x = sum m (fun k => (if r (arc_tail A k) && negb (r (arc_head A k)) then x k else 0) - (if r (arc_head A k) && negb (r (arc_tail A k)) then x k else 0)).
Proof using ends Ls.
  intros [F1 F2] Rs Rt. pose proof (weighted n A ends (fun v => if r v then 1 else 0) x) as W. cbv beta in W.
  rewrite (sum_ext n _ (fun v => delta s v * balance A x v)) in W.
  - rewrite sum_delta_l in W by assumption. rewrite value_balance, W, <- sum_opp. apply sum_ext. intros k _. destruct (r (arc_head A k)), (r (arc_tail A k)); cbn [andb negb]; ring.
  - intros v Lv. unfold delta. destruct (Nat.eqb_spec s v) as [<-|Nv]; [now rewrite Rs|]. destruct (Nat.eq_dec v t) as [->|Nt]; [rewrite Rt; ring|].
    rewrite balance_flows, F2 by auto. destruct (r v); ring.
Qed.
Lemma value_below_cut x r : flow A s t x -> r s = true -> r t = false -> flow_value A s x <= cut_capacity A r.
Proof using ends Ls.
  intros F Rs Rt. rewrite (value_across x r F Rs Rt). apply sum_le. intros k Lk. destruct F as [F _]. destruct (F k Lk) as [H1 H2].
  destruct (r (arc_head A k)), (r (arc_tail A k)); cbn [andb negb]; qlra.
Qed.
Definition residual : list (nat * nat * Qc) := A ++ map (fun '(f, u, v) => (u, f, v)) A.
Lemma residual_ends f u v : In (f, u, v) residual -> (f < n)%nat /\ (u < n)%nat.
Proof using ends.
  intros I. apply in_app_iff in I. destruct I as [I|I]; [now apply ends in I|]. apply in_map_iff in I. destruct I as ([[f' u'] v'] & X & I). injection X as -> -> ->. apply ends in I. tauto.
Qed.
Lemma residual_length : length residual = (m + m)%nat.
Proof. unfold residual. now rewrite app_length, map_length. Qed.
Lemma residual_up k : (k < m)%nat -> arc_tail residual k = arc_tail A k /\ arc_head residual k = arc_head A k.
Proof. intros L. unfold arc_tail, arc_head, residual. now rewrite app_nth1. Qed.
Lemma residual_down k : (k < m)%nat -> arc_tail residual (m + k) = arc_head A k /\ arc_head residual (m + k) = arc_tail A k.
Proof using.
  clear Ls. intros L. unfold arc_tail, arc_head, residual. rewrite app_nth2 by lia. replace (m + k - m)%nat with k by lia.
  pose proof (map_nth (fun '(f, u, v) => (u, f, v)) A (0%nat, 0%nat, 0) k) as Q. cbv beta iota in Q. rewrite Q. destruct (nth k A (0%nat, 0%nat, 0)) as [[f u] v]. now split.
Qed.
Definition left_over (x : vec) : vec := fun k => if Nat.ltb k m then arc_length A k - x k else x (k - m)%nat.
Lemma maximum_cut x : s <> t -> maximum_flow A s t x -> exists r, r s = true /\ r t = false /\ flow_value A s x = cut_capacity A r.
Proof using ends Ls.
  intros N [F M]. assert (U : forall k, (k < m)%nat -> left_over x k = arc_length A k - x k) by (intros k L; unfold left_over; destruct (Nat.ltb_spec k m); [reflexivity|lia]).
  assert (D : forall k, (k < m)%nat -> left_over x (m + k)%nat = x k) by (intros k L; unfold left_over; destruct (Nat.ltb_spec (m + k) m); [lia|f_equal; lia]).
  destruct (walk_or_cut n residual residual_ends s t (left_over x)) as [(l & W & P)|(r & R1 & R2 & R3)].
  - exfalso. assert (LO : forall k, (k < m + m)%nat -> 0 <= left_over x k).
    { intros k L. destruct (Nat.lt_ge_cases k m) as [C|C]; [rewrite U by assumption; destruct (proj1 F k C); qlra|]. replace k with (m + (k - m))%nat by lia. rewrite D by lia. apply F. lia. }
    destruct (room (left_over x) (uses l) (m + m)) as (e & Pe & He).
    { intros k L. split; [now apply LO|]. split; [apply uses_nonneg|]. intros Z. apply uses_0. intros I. specialize (P k I). rewrite Z in P. discriminate. }
    set (y := fun k => x k + e * (uses l k - uses l (m + k)%nat)).
    assert (B : forall v, balance A y v = balance A x v + e * (delta t v - delta s v)).
    { intros v. rewrite <- (walk_balance residual s t l v W). unfold balance. rewrite residual_length, sum_add, <- sum_plus, <- sum_scal_l, <- sum_plus. apply sum_ext. intros k Lk.
      destruct (residual_up k Lk) as [-> ->]. destruct (residual_down k Lk) as [-> ->]. unfold y, incidence_entry. ring. }
    assert (FY : flow A s t y).
    { split.
      - intros k L. unfold y. pose proof (uses_nonneg l k). pose proof (uses_nonneg l (m + k)%nat). assert (H1 : e * uses l k <= arc_length A k - x k) by (rewrite <- U by assumption; apply He; lia).
        assert (H2 : e * uses l (m + k)%nat <= x k) by (apply Qcle_trans with (left_over x (m + k)%nat); [apply He; lia|rewrite D by assumption; qlra]).
        assert (0 <= e * uses l k) by qnra. assert (0 <= e * uses l (m + k)%nat) by qnra. split; qlra.
      - intros v N1 N2. destruct F as [_ F]. specialize (F v N1 N2). specialize (B v). rewrite !balance_flows in B. unfold delta in B. destruct (Nat.eqb_spec t v); [congruence|]. destruct (Nat.eqb_spec s v); [congruence|]. qlra. }
    specialize (M y FY). rewrite !value_balance, B in M. unfold delta in M. rewrite Nat.eqb_refl in M. destruct (Nat.eqb_spec t s); [congruence|]. qlra.
  - exists r. split; [assumption|split; [assumption|]]. rewrite (value_across x r F R1 R2). apply sum_ext. intros k Lk. destruct (proj1 F k Lk) as [H1 H2].
    pose proof (R3 k) as Q1. pose proof (R3 (m + k)%nat) as Q2. rewrite residual_length in Q1, Q2. destruct (residual_up k Lk) as [E1 E2]. destruct (residual_down k Lk) as [E3 E4].
    rewrite E1, E2, U in Q1 by assumption. rewrite E3, E4, D in Q2 by assumption. destruct (r (arc_head A k)), (r (arc_tail A k)); cbn [andb negb].
    + ring.
    + assert (x k <= 0) by (apply Q2; [lia|reflexivity|reflexivity]). assert (Z : x k = 0) by (apply Qcle_antisym; assumption). rewrite Z. ring.
    + assert (arc_length A k - x k <= 0) by (apply Q1; [lia|reflexivity|reflexivity]). assert (Z : x k = arc_length A k) by (apply Qcle_antisym; [assumption|qlra]). rewrite Z. ring.
    + ring.
Qed.
End Cuts.
