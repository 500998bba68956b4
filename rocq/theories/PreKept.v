(** * Presolving: the rows and columns that are left are numbered again *)
From Verif Require Import SpecGeneral SparseP LinAlg KindP InitP PermP KeptP CarryP SearchP StandardP StandardQ RangesP.
From Coq Require Import Permutation.
From Verif Require Export PreOrder.
Local Open Scope Qc_scope.
Local Notation kept := CarryP.kept.

(** ** The numbers of the variables that are left *)
Lemma increasing_nth lo l : increasing_from lo l -> forall i, (i < length l)%nat -> (lo <= nth i l 0)%nat.
Proof.
  revert lo. induction l as [|x l IH]; intros lo H i Hi; cbn in *; [lia|]. destruct H as [H1 H2]. destruct i as [|i]; [assumption|].
  pose proof (IH (S x) H2 i ltac:(lia)). lia.
Qed.
Lemma increasing_lt lo l : increasing_from lo l -> forall i j, (i < j < length l)%nat -> (nth i l 0 < nth j l 0)%nat.
Proof.
  revert lo. induction l as [|x l IH]; intros lo H i j Hi; cbn in *; [lia|]. destruct H as [H1 H2]. destruct j as [|j]; [lia|]. destruct i as [|i].
  - pose proof (increasing_nth (S x) l H2 j ltac:(lia)). lia.
  - apply (IH (S x) H2). lia.
Qed.
Lemma increasing_nd lo l : increasing_from lo l -> NoDup l.
Proof.
  revert lo. induction l as [|x l IH]; intros lo H; [constructor|]. destruct H as [H1 H2]. constructor; [|now apply (IH (S x))].
  intros I. apply (In_nth _ _ 0%nat) in I. destruct I as (i & L & E). pose proof (increasing_nth _ _ H2 i L). lia.
Qed.
Lemma count_at vs : forall s x, (s <= length vs)%nat -> (forall i, (i < s)%nat -> (nth i vs 0 < x)%nat) ->
  (forall i, (s <= i < length vs)%nat -> (x <= nth i vs 0)%nat) -> count_below x vs = s.
Proof.
  unfold count_below. induction vs as [|v vs IH]; intros s x L B A; cbn [filter length] in *; [lia|]. destruct s as [|s].
  - destruct (Nat.ltb_spec v x) as [C|C].
    + specialize (A 0%nat ltac:(lia)). cbn in A. lia.
    + apply IH; [lia|lia|]. intros i Hi. apply (A (S i)). lia.
  - destruct (Nat.ltb_spec v x) as [C|C].
    + cbn [length]. f_equal. apply IH; [lia| |].
      * intros i Hi. apply (B (S i)). lia.
      * intros i Hi. apply (A (S i)). lia.
    + specialize (B 0%nat ltac:(lia)). cbn in B. lia.
Qed.

Lemma nth_map_lt {A B} (f : A -> B) l i d e : (i < length l)%nat -> nth i (map f l) e = f (nth i l d).
Proof. intros L. rewrite (nth_indep _ e (f d)) by now rewrite map_length. apply map_nth. Qed.

Lemma nth_firstn_lt' {A} (d : A) n : forall l i, (i < n)%nat -> nth i (firstn n l) d = nth i l d.
Proof. induction n as [|n IH]; intros l i L; [lia|]. destruct l as [|x l]; [reflexivity|]. destruct i as [|i]; [reflexivity|]. cbn. apply IH. lia. Qed.

Section Rename.
Variables (N : nat) (vs : list nat).
Hypothesis inc : increasing_from 0 vs.
Hypothesis bnd : forall x, In x vs -> (x < N)%nat.
(** [s] removed variables have a number below [j + s]; one more may have exactly that number *)
Definition between (j s : nat) : Prop := (1 <= s <= length vs)%nat /\ (nth (s - 1) vs 0 < j + s)%nat /\ (s = length vs \/ j + s <= nth s vs 0)%nat.
Lemma skip_spec j : forall fuel s, between j s -> (length vs - s <= fuel)%nat ->
  let s' := skip fuel vs j s in between j s' /\ (s' = length vs \/ j + s' < nth s' vs 0)%nat.
Proof.
  induction fuel as [|fuel IH]; intros s (B1 & B2 & B3) F; cbn [skip].
  - assert (E : s = length vs) by lia. split; [|now left]. split; [assumption|]. split; [assumption|now left].
  - destruct (nth_error vs s) as [v|] eqn:E.
    + assert (L : (s < length vs)%nat) by (apply nth_error_Some; congruence). assert (V : nth s vs 0%nat = v) by now apply nth_error_nth.
      destruct (Nat.eqb_spec v (j + s)) as [C|C].
      * apply IH; [|lia]. split; [lia|]. split; [replace (S s - 1)%nat with s by lia; lia|].
        destruct (Nat.eq_dec (S s) (length vs)) as [D|D]; [now left|right]. pose proof (increasing_lt 0 vs inc s (S s) ltac:(lia)). lia.
      * split; [split; [assumption|split; assumption]|]. right. destruct B3 as [B3|B3]; lia.
    + apply nth_error_None in E. split; [split; [assumption|split; assumption]|]. left. lia.
Qed.
Lemma between_kept j s : between j s -> (s = length vs \/ j + s < nth s vs 0)%nat -> (j < N - length vs)%nat -> nth j (kept N vs) 0%nat = (j + s)%nat.
Proof.
  intros (B1 & B2 & B3) S J.
  assert (BL : forall i, (i < s)%nat -> (nth i vs 0 < j + s)%nat).
  { intros i Hi. destruct (Nat.eq_dec i (s - 1)) as [->|D]; [assumption|]. pose proof (increasing_lt 0 vs inc i (s - 1) ltac:(lia)). lia. }
  assert (AB : forall i, (s <= i < length vs)%nat -> (j + s < nth i vs 0)%nat).
  { intros i Hi. destruct S as [S|S]; [lia|]. destruct (Nat.eq_dec i s) as [->|D]; [assumption|]. pose proof (increasing_lt 0 vs inc s i ltac:(lia)). lia. }
  assert (C : count_below (j + s) vs = s) by (apply count_at; [lia|assumption|]; intros i Hi; specialize (AB i Hi); lia).
  pose proof (nth_pos N vs (j + s) (increasing_nd _ _ inc)) as P. unfold pos in P. rewrite C in P. replace (j + s - s)%nat with j in P by lia. apply P; [lia|].
  intros I. apply (In_nth _ _ 0%nat) in I. destruct I as (i & L & E). destruct (Nat.lt_ge_cases i s) as [D|D]; [specialize (BL i D)|specialize (AB i ltac:(lia))]; lia.
Qed.

Lemma rename_loop (from : list nat) : length from = N -> forall k j F s, length F = N -> between j s -> (j + k = N - length vs)%nat ->
  (forall i, (i < j)%nat -> nth i F 0%nat = nth (nth i (kept N vs) 0%nat) from 0%nat) -> (forall i, (j <= i)%nat -> nth i F 0%nat = nth i from 0%nat) ->
  exists F' s', foldM (rename_step vs) (seq j k) (F, s) = Ok (F', s') /\ length F' = N /\
    forall i, (i < N - length vs)%nat -> nth i F' 0%nat = nth (nth i (kept N vs) 0%nat) from 0%nat.
Proof.
  intros LF. induction k as [|k IH]; intros j F s L B E LO HI; cbn [seq foldM].
  - exists F, s. split; [reflexivity|]. split; [assumption|]. intros i Hi. apply LO. lia.
  - unfold rename_step at 1. destruct (skip_spec j (length vs) s B ltac:(lia)) as [B' S']. set (s' := skip (length vs) vs j s) in *.
    pose proof (between_kept j s' B' S' ltac:(lia)) as K. assert (J : (j + s' < N)%nat) by (destruct B' as [B' _]; lia).
    rewrite (index_Ok F (j + s') 0%nat) by lia. cbn [bind]. rewrite set_index_upd by lia. cbn [bind]. apply IH.
    + now rewrite upd_length.
    + destruct B' as (B1 & B2 & B3). split; [assumption|]. split; [lia|]. destruct S' as [S'|S']; [now left|right; lia].
    + lia.
    + intros i Hi. destruct (Nat.eq_dec i j) as [->|D].
      * rewrite nth_upd_same by lia. rewrite K. apply HI. lia.
      * rewrite nth_upd_other by lia. apply LO. lia.
    + intros i Hi. rewrite nth_upd_other by lia. apply HI. lia.
Qed.
Lemma rename_spec (from : list nat) : length from = N -> rename from vs = Ok (remove_indices from vs).
Proof.
  intros L. assert (SR : sorted_rows (length from) vs) by (split; [now apply (increasing_nd 0)|]; intros i Hi; rewrite L; now apply bnd).
  unfold rename. destruct vs as [|first t] eqn:V0.
  - f_equal. rewrite (remove_indices_spec 0%nat). unfold kept. cbn. rewrite filter_every by reflexivity. clear -from.
    apply nth_ext with 0%nat 0%nat; [now rewrite map_length, seq_length|]. intros i Hi.
    rewrite (nth_map_lt _ _ _ 0%nat) by now rewrite seq_length. now rewrite seq_nth.
  - assert (V : vs = first :: t) by exact V0. clear V0. rewrite <- V in SR, inc, bnd |- *. pose proof (sorted_rows_length _ _ SR) as LV. rewrite L in *. destruct (Nat.ltb_spec N (length vs)) as [C|C]; [lia|]. clear C.
    assert (FN : (first < N)%nat) by (apply bnd; rewrite V; now left).
    unfold range. destruct (Nat.le_gt_cases first (N - length vs)) as [C|C].
    + destruct (rename_loop from L (N - length vs - first) first from 1%nat L) as (F & s & E & LF & H).
      * unfold between. rewrite V. split; [cbn; lia|]. cbn [Nat.sub nth]. split; [lia|]. destruct t as [|x t]; [now left|right]. cbn. rewrite V in inc. cbn in inc. lia.
      * lia.
      * intros i Hi. f_equal. symmetry. assert (CB : count_below i vs = 0%nat).
        { apply count_at; [lia|lia|]. intros k Hk. rewrite V in *. destruct k as [|k]; [cbn; lia|]. pose proof (increasing_lt 0 _ inc 0 (S k) ltac:(lia)). cbn [nth] in *. lia. }
        pose proof (nth_pos N vs i (increasing_nd _ _ inc)) as P. unfold pos in P. rewrite CB, Nat.sub_0_r in P. apply P; [lia|].
        intros I. apply (In_nth _ _ 0%nat) in I. destruct I as (k & Lk & Ek). rewrite V in *. destruct k as [|k]; [cbn in Ek; lia|]. pose proof (increasing_lt 0 _ inc 0 (S k) ltac:(lia)). cbn [nth] in *. lia.
      * intros i _. reflexivity.
      * rewrite E. cbn [bind fst]. f_equal. rewrite (remove_indices_spec 0%nat), L.
        assert (LK : length (kept N vs) = (N - length vs)%nat) by now apply kept_length.
        apply nth_ext with 0%nat 0%nat; [rewrite firstn_length, map_length, LK; lia|]. intros i Hi. rewrite firstn_length in Hi. rewrite nth_firstn_lt' by lia.
        rewrite H by lia. now rewrite (nth_map_lt _ _ _ 0%nat) by (rewrite LK; lia).
    + replace (N - length vs - first)%nat with 0%nat by lia. cbn [seq foldM bind fst]. f_equal. rewrite (remove_indices_spec 0%nat), L.
      assert (LK : length (kept N vs) = (N - length vs)%nat) by now apply kept_length.
      apply nth_ext with 0%nat 0%nat; [rewrite firstn_length, map_length, LK; lia|]. intros i Hi. rewrite firstn_length in Hi. rewrite nth_firstn_lt' by lia.
      rewrite (nth_map_lt _ _ _ 0%nat) by (rewrite LK; lia). f_equal. symmetry.
      assert (CB : count_below i vs = 0%nat).
      { apply count_at; [lia|lia|]. intros k Hk. rewrite V in *. destruct k as [|k]; [cbn; lia|]. pose proof (increasing_lt 0 _ inc 0 (S k) ltac:(lia)). cbn [nth] in *. lia. }
      pose proof (nth_pos N vs i (increasing_nd _ _ inc)) as P. unfold pos in P. rewrite CB, Nat.sub_0_r in P. apply P; [lia|].
      intros I. apply (In_nth _ _ 0%nat) in I. destruct I as (k & Lk & Ek). rewrite V in *. destruct k as [|k]; [cbn in Ek; lia|]. pose proof (increasing_lt 0 _ inc 0 (S k) ltac:(lia)). cbn [nth] in *. lia.
Qed.
End Rename.

(** ** The table of the original variables *)
Lemma set_removed_all : forall l orig, NoDup (map fst l) -> (forall o, In o (map fst l) -> (o < length orig)%nat) ->
  exists orig', foldM set_removed l orig = Ok orig' /\ length orig' = length orig /\
    forall o name e, nth_error orig o = Some (name, e) ->
      (forall r, In (o, r) l -> nth_error orig' o = Some (name, Removed r)) /\ (~ In o (map fst l) -> nth_error orig' o = Some (name, e)).
Proof.
  induction l as [|[o r] l IH]; intros orig ND B; cbn [foldM].
  - exists orig. split; [reflexivity|]. split; [reflexivity|]. intros o name e E. split; [intros r []|auto].
  - cbn [map fst] in ND. apply NoDup_cons_iff in ND. destruct ND as [NI ND]. assert (L : (o < length orig)%nat) by (apply B; now left).
    destruct (nth_error orig o) as [[name0 e0]|] eqn:E0; [|apply nth_error_None in E0; lia].
    unfold set_removed at 1. cbn [fst snd]. rewrite (proj2 (index_ok orig o (name0, e0)) E0). cbn [bind fst]. rewrite set_index_upd by assumption. cbn [bind].
    destruct (IH (upd orig o (name0, Removed r)) ND) as (orig' & F & L' & H).
    { intros k Hk. rewrite upd_length. apply B. now right. }
    exists orig'. split; [assumption|]. split; [now rewrite L', upd_length|]. intros k name e E. destruct (Nat.eq_dec k o) as [->|D].
    + assert (X : (name, e) = (name0, e0)) by congruence. injection X as -> ->.
      destruct (H o name0 (Removed r)) as [H1 H2]; [rewrite upd_nth_error, Nat.eqb_refl; now destruct (Nat.ltb_spec o (length orig)); [|lia]|]. split.
      * intros r' [X|X]; [injection X as <-; now apply H2|]. exfalso. apply NI. now apply (in_map fst) in X.
      * intros X. exfalso. apply X. now left.
    + destruct (H k name e) as [H1 H2]; [rewrite upd_nth_error; destruct (Nat.eqb_spec k o); [contradiction|assumption]|]. split.
      * intros r' [X|X]; [injection X as X _; congruence|now apply H1].
      * intros X. apply H2. intros Y. apply X. now right.
Qed.
Lemma renumber_all : forall l orig, NoDup (map snd l) -> (forall k o, In (k, o) l -> exists name j, nth_error orig o = Some (name, Active j)) ->
  exists orig', foldM renumber l orig = Ok orig' /\ length orig' = length orig /\
    forall o name e, nth_error orig o = Some (name, e) ->
      (forall k, In (k, o) l -> nth_error orig' o = Some (name, Active k)) /\ (~ In o (map snd l) -> nth_error orig' o = Some (name, e)).
Proof.
  induction l as [|[k o] l IH]; intros orig ND B; cbn [foldM].
  - exists orig. split; [reflexivity|]. split; [reflexivity|]. intros o name e E. split; [intros r []|auto].
  - cbn [map snd] in ND. apply NoDup_cons_iff in ND. destruct ND as [NI ND]. destruct (B k o (or_introl eq_refl)) as (name0 & j0 & E0).
    assert (L : (o < length orig)%nat) by (apply nth_error_Some; congruence).
    unfold renumber at 1. cbn [fst snd]. rewrite (proj2 (index_ok orig o (name0, Active j0)) E0). cbn [bind fst snd]. rewrite set_index_upd by assumption. cbn [bind].
    destruct (IH (upd orig o (name0, Active k)) ND) as (orig' & F & L' & H).
    { intros k' o' I. destruct (B k' o' (or_intror I)) as (name & j & E). destruct (Nat.eq_dec o' o) as [->|D].
      - exfalso. apply NI. now apply (in_map snd) in I.
      - exists name, j. rewrite upd_nth_error. destruct (Nat.eqb_spec o' o); [contradiction|assumption]. }
    exists orig'. split; [assumption|]. split; [now rewrite L', upd_length|]. intros o' name e E. destruct (Nat.eq_dec o' o) as [->|D].
    + assert (X : (name, e) = (name0, Active j0)) by congruence. injection X as -> ->.
      destruct (H o name0 (Active k)) as [H1 H2]; [rewrite upd_nth_error, Nat.eqb_refl; now destruct (Nat.ltb_spec o (length orig)); [|lia]|]. split.
      * intros k' [X|X]; [injection X as <-; now apply H2|]. exfalso. apply NI. now apply (in_map snd) in X.
      * intros X. exfalso. apply X. now left.
    + destruct (H o' name e) as [H1 H2]; [rewrite upd_nth_error; destruct (Nat.eqb_spec o' o); [contradiction|assumption]|]. split.
      * intros r' [X|X]; [injection X as _ X; congruence|now apply H1].
      * intros X. apply H2. intros Y. apply X. now right.
Qed.

(** ** The program that is left *)
Section Reduced.
Variables (g : general) (u : updates).
Local Notation n := (nr_vars g).
Local Notation m := (g_rows g).
Hypothesis G : general_ok g.
Hypothesis F : fresh g.
Hypothesis rem_nd : NoDup (map fst (u_removed u)).
Hypothesis rem_lt : forall j, In j (map fst (u_removed u)) -> (j < n)%nat.
Hypothesis gone_nd : NoDup (u_gone u).
Hypothesis gone_lt : forall i, In i (u_gone u) -> (i < m)%nat.
Definition vars_out : list nat := sort_by (fun x => x) (map fst (u_removed u)).
Definition rows_out : list nat := sort_by (fun x => x) (u_gone u).
Definition vars_in : list nat := kept n vars_out.
Definition rows_in : list nat := kept m rows_out.

Lemma sort_nd l : NoDup l -> increasing_from 0 (sort_by (fun x => x) l).
Proof. intros H. rewrite <- (map_id (sort_by _ l)). apply (sort_by_increasing (fun x : nat => x)). now rewrite map_id. Qed.
Lemma vars_out_inc : increasing_from 0 vars_out. Proof. now apply sort_nd. Qed.
Lemma rows_out_inc : increasing_from 0 rows_out. Proof. now apply sort_nd. Qed.
Lemma vars_out_In j : In j vars_out <-> In j (map fst (u_removed u)). Proof. apply sort_by_In. Qed.
Lemma rows_out_In i : In i rows_out <-> In i (u_gone u). Proof. apply sort_by_In. Qed.
Lemma vars_in_In j : In j vars_in <-> (j < n)%nat /\ ~ In j (map fst (u_removed u)).
Proof. unfold vars_in. rewrite kept_In, vars_out_In. reflexivity. Qed.
Lemma rows_in_In i : In i rows_in <-> (i < m)%nat /\ ~ In i (u_gone u).
Proof. unfold rows_in. rewrite kept_In, rows_out_In. reflexivity. Qed.
Lemma vars_out_sorted : sorted_rows n vars_out.
Proof. split; [apply (increasing_nd 0), vars_out_inc|]. intros j H. apply rem_lt. now apply vars_out_In. Qed.
Lemma rows_out_sorted : sorted_rows m rows_out.
Proof. split; [apply (increasing_nd 0), rows_out_inc|]. intros j H. apply gone_lt. now apply rows_out_In. Qed.

Record reduces (g2 : general) : Prop := mk_reduces {
  rd_objective : g_objective g2 = g_objective g;
  rd_fixed : g_fixed g2 = g_fixed g + u_fixed u;
  rd_rows : g_rows g2 = length rows_in;
  rd_vars : nr_vars g2 = length vars_in;
  rd_nc : length (g_cols g2) = length vars_in;
  rd_nt : length (g_types g2) = length rows_in;
  rd_nb : length (g_b g2) = length rows_in;
  rd_col : forall j, (j < length vars_in)%nat -> nth j (g_cols g2) [] = sremove (nth (nth j vars_in 0%nat) (g_cols g) []) rows_out;
  rd_type : forall i, (i < length rows_in)%nat -> row_type g2 i = type_of g u (nth i rows_in 0%nat);
  rd_b : forall i, (i < length rows_in)%nat -> nthq (g_b g2) i = b_of g u (nth i rows_in 0%nat);
  rd_var : forall j, (j < length vars_in)%nat -> let k := nth j vars_in 0%nat in
     v_cost (var g2 j) = v_cost (gvar g k) /\ v_lower (var g2 j) = final_bound g u k Lower /\ v_upper (var g2 j) = final_bound g u k Upper /\
     v_shift (var g2 j) = 0 /\ v_flipped (var g2 j) = false;
  rd_from : g_from g2 = vars_in;
  rd_no : length (g_orig g2) = n;
  rd_orig : forall o, (o < n)%nat -> exists name, nth_error (g_orig g) o = Some (name, Active o) /\
     (forall r, In (o, r) (u_removed u) -> nth_error (g_orig g2) o = Some (name, Removed r)) /\
     (forall j, (j < length vars_in)%nat -> nth j vars_in 0%nat = o -> nth_error (g_orig g2) o = Some (name, Active j)) }.

Lemma from_fresh : g_from g = seq 0 n.
Proof.
  destruct F as (F1 & F2 & F3 & F4). apply nth_ext with 0%nat 0%nat; [rewrite seq_length; apply (gok_from _ G)|].
  intros i Hi. rewrite (gok_from _ G) in Hi. rewrite seq_nth by assumption. now apply F4.
Qed.
Lemma remove_seq : remove_indices (seq 0 n) vars_out = vars_in.
Proof.
  rewrite (remove_indices_spec 0%nat), seq_length. unfold vars_in. erewrite map_ext_in; [apply map_id|].
  intros k Hk. apply kept_In in Hk. now rewrite seq_nth.
Qed.
Lemma number_nth {A B} (f : nat -> A -> B) (l : list A) i d e : (i < length l)%nat -> nth i (map (fun '(k, x) => f k x) (number_from 0 l)) e = f i (nth i l d).
Proof.
  intros L. rewrite (number_from_range d), map_map. rewrite (nth_map_lt _ _ _ 0%nat) by now rewrite seq_length. rewrite seq_nth by assumption. cbn [Nat.add]. now rewrite Nat.sub_0_r.
Qed.
Lemma is_removed_In j : is_removed u j = true <-> In j (map fst (u_removed u)).
Proof.
  unfold is_removed. rewrite existsb_exists, in_map_iff. split.
  - intros ([k r] & I & E). apply Nat.eqb_eq in E. now exists (k, r).
  - intros ([k r] & E & I). exists (k, r). split; [assumption|]. apply Nat.eqb_eq. exact E.
Qed.

Lemma reduced_spec : exists g1 g2, values_that_remain g u = Ok g1 /\ remove_rows_and_columns g1 (u_gone u) (map fst (u_removed u)) = Ok g2 /\ reduces g2.
Proof.
  destruct F as (F1 & F2 & F3 & F4).
  destruct (set_removed_all (sort_by fst (u_removed u)) (g_orig g)) as (orig1 & E1 & L1 & H1).
  { apply (Permutation_NoDup (l := map fst (u_removed u))); [|assumption]. apply Permutation_map, Permutation_sym, RangesP.sort_by_perm. }
  { intros o Ho. rewrite F1. apply rem_lt. apply in_map_iff in Ho. destruct Ho as (x & <- & Ho). apply in_map. now apply sort_by_In in Ho. }
  unfold values_that_remain. rewrite E1. cbn [bind].
  set (types := map (fun '(i, t) => if is_gone u i then t else type_of g u i) (number_from 0 (g_types g))).
  set (b := map (fun '(i, b) => if is_gone u i then b else b_of g u i) (number_from 0 (g_b g))).
  set (vars := map (fun '(j, v) => final_variable g u j v) (number_from 0 (g_vars g))).
  exists (mk_general (g_objective g) (g_fixed g + u_fixed u) m (g_cols g) types b vars orig1 (g_from g)).
  unfold remove_rows_and_columns. cbn [g_from g_orig g_rows g_cols g_types g_b g_vars g_objective g_fixed].
  fold vars_out rows_out.
  rewrite (rename_spec n vars_out vars_out_inc (fun x H => rem_lt x (proj1 (vars_out_In x) H)) (g_from g) (gok_from _ G)). cbn [bind].
  rewrite from_fresh, remove_seq.
  assert (LK : length vars_in = (n - length vars_out)%nat) by (apply kept_length, vars_out_sorted).
  assert (LR : length rows_in = (m - length rows_out)%nat) by (apply kept_length, rows_out_sorted).
  pose proof (sorted_rows_length _ _ rows_out_sorted) as LO.
  assert (O2 : exists orig2, (match vars_out with [] => Ok orig1 | _ => foldM renumber (number_from 0 vars_in) orig1 end) = Ok orig2 /\ length orig2 = n /\
    forall o, (o < n)%nat -> exists name, nth_error (g_orig g) o = Some (name, Active o) /\
     (forall r, In (o, r) (u_removed u) -> nth_error orig2 o = Some (name, Removed r)) /\
     (forall j, (j < length vars_in)%nat -> nth j vars_in 0%nat = o -> nth_error orig2 o = Some (name, Active j))).
  { assert (A1 : forall o, (o < n)%nat -> exists name, nth_error (g_orig g) o = Some (name, Active o) /\
       (forall r, In (o, r) (u_removed u) -> nth_error orig1 o = Some (name, Removed r)) /\ (~ In o vars_out -> nth_error orig1 o = Some (name, Active o))).
    { intros o Ho. destruct (F2 o Ho) as [name E]. exists name. split; [assumption|]. destruct (H1 o name _ E) as [X1 X2]. split.
      - intros r I. apply X1. now apply sort_by_In.
      - intros N. apply X2. intros I. apply N, vars_out_In. apply in_map_iff in I. destruct I as (x & <- & I). apply in_map. now apply sort_by_In in I. }
    assert (C : vars_out = [] \/ (match vars_out with [] => Ok orig1 | _ => foldM renumber (number_from 0 vars_in) orig1 end) = foldM renumber (number_from 0 vars_in) orig1) by (destruct vars_out; [now left|now right]).
    destruct C as [C|C].
    - rewrite C. exists orig1. split; [reflexivity|]. split; [now rewrite L1|]. intros o Ho. destruct (A1 o Ho) as (name & X1 & X2 & X3). exists name. split; [assumption|]. split; [assumption|].
      intros j Hj E. rewrite X3 by (rewrite C; intros []). do 3 f_equal. rewrite <- E. unfold vars_in. rewrite C. unfold kept. rewrite filter_every by reflexivity.
      rewrite seq_nth; [reflexivity|]. rewrite C in LK. cbn in LK. lia.
    - rewrite C. destruct (renumber_all (number_from 0 vars_in) orig1) as (orig2 & E2 & L2 & H2).
      + rewrite (number_from_range 0%nat), map_map. cbn [snd]. erewrite (map_ext_in _ (fun k => nth k vars_in 0%nat)) by (intros k _; now rewrite Nat.sub_0_r).
        assert (E : map (fun k => nth k vars_in 0%nat) (seq 0 (length vars_in)) = vars_in).
        { apply nth_ext with 0%nat 0%nat; [now rewrite map_length, seq_length|]. intros i Hi. rewrite map_length, seq_length in Hi. rewrite (nth_map_lt _ _ _ 0%nat) by now rewrite seq_length. now rewrite seq_nth. }
        rewrite E. apply kept_NoDup.
      + intros k o I. apply In_number_from in I. destruct I as [_ I]. apply nth_error_In in I. apply vars_in_In in I. destruct I as [I1 I2].
        destruct (A1 o I1) as (name & X1 & X2 & X3). exists name, o. apply X3. intros X. apply I2. now apply vars_out_In.
      + exists orig2. split; [assumption|]. split; [now rewrite L2, L1|]. intros o Ho. destruct (A1 o Ho) as (name & X1 & X2 & X3). exists name. split; [assumption|]. split.
        * intros r I. apply (H2 o name (Removed r) (X2 r I)). intros X. apply in_map_iff in X. destruct X as ([k o'] & E & X). cbn in E. subst o'.
          apply In_number_from in X. destruct X as [_ X]. apply nth_error_In in X. apply vars_in_In in X. apply (proj2 X). now apply (in_map fst) in I.
        * intros j Hj E. assert (N : ~ In o vars_out).
          { intros X. assert (I : In o vars_in) by (rewrite <- E; now apply nth_In). apply vars_in_In in I. apply (proj2 I). now apply vars_out_In. }
          apply (H2 o name (Active o) (X3 N)). apply In_number_from. split; [lia|]. rewrite Nat.sub_0_r. rewrite <- E. now apply nth_error_nth'. }
  destruct O2 as (orig2 & E2 & L2 & H2). eexists. split; [reflexivity|]. split; [rewrite E2; cbn [bind]; destruct (Nat.ltb_spec m (length rows_out)); [lia|]; reflexivity|].
  assert (LT : length types = m) by (unfold types; rewrite map_length, number_from_length; apply (gok_types _ G)).
  assert (LB : length b = m) by (unfold b; rewrite map_length, number_from_length; apply (gok_b _ G)).
  assert (LV : length vars = n) by (unfold vars; rewrite map_length, number_from_length; reflexivity).
  assert (IN : forall i, (i < length rows_in)%nat -> (nth i rows_in 0 < m)%nat /\ is_gone u (nth i rows_in 0%nat) = false).
  { intros i Hi. assert (I : In (nth i rows_in 0%nat) rows_in) by now apply nth_In. apply rows_in_In in I. split; [apply I|]. apply memb_false, I. }
  assert (JN : forall j, (j < length vars_in)%nat -> (nth j vars_in 0 < n)%nat /\ is_removed u (nth j vars_in 0%nat) = false).
  { intros j Hj. assert (I : In (nth j vars_in 0%nat) vars_in) by now apply nth_In. apply vars_in_In in I. split; [apply I|].
    destruct (is_removed u (nth j vars_in 0%nat)) eqn:E; [|reflexivity]. apply is_removed_In in E. now destruct I. }
  constructor; cbn [g_from g_orig g_rows g_cols g_types g_b g_vars g_objective g_fixed]; try reflexivity; try assumption.
  - now rewrite LR.
  - unfold nr_vars. cbn [g_vars]. rewrite remove_indices_length by (rewrite LV; apply vars_out_sorted). rewrite LV. now rewrite LK.
  - rewrite map_length, remove_indices_length by (rewrite (gok_cols _ G); apply vars_out_sorted). rewrite (gok_cols _ G). now rewrite LK.
  - rewrite remove_indices_length by (rewrite LT; apply rows_out_sorted). now rewrite LT, LR.
  - rewrite remove_indices_length by (rewrite LB; apply rows_out_sorted). now rewrite LB, LR.
  - intros j Hj. rewrite (nth_map_lt _ _ _ []) by (rewrite remove_indices_length by (rewrite (gok_cols _ G); apply vars_out_sorted); rewrite (gok_cols _ G); lia).
    f_equal. rewrite nth_remove_indices; rewrite (gok_cols _ G); [reflexivity|assumption].
  - intros i Hi. unfold row_type. cbn [g_types]. rewrite nth_remove_indices; rewrite LT; [|assumption]. fold rows_in. unfold types.
    rewrite (number_nth (fun i t => if is_gone u i then t else type_of g u i) _ _ Equal) by (rewrite (gok_types _ G); now apply IN). destruct (IN i Hi) as [_ ->]. reflexivity.
  - intros i Hi. unfold nthq. rewrite nth_remove_indices; rewrite LB; [|assumption]. fold rows_in. unfold b.
    rewrite (number_nth (fun i b => if is_gone u i then b else b_of g u i) _ _ 0) by (rewrite (gok_b _ G); now apply IN). destruct (IN i Hi) as [_ ->]. reflexivity.
  - intros j Hj. cbv zeta. set (k := nth j vars_in 0%nat). unfold var. cbn [g_vars]. rewrite nth_remove_indices; rewrite LV; [|assumption]. fold vars_in k. unfold vars.
    destruct (JN j Hj) as [J1 J2]. fold k in J1, J2. rewrite (number_nth (fun j v => final_variable g u j v) _ _ no_variable) by exact J1. unfold final_variable. rewrite J2.
    cbn [v_cost v_lower v_upper v_shift v_flipped]. repeat split; now apply (F3 k).
Qed.
End Reduced.
