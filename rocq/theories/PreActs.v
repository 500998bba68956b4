(** * Presolving: the counters of missing bounds are exact *)
From Verif Require Import SpecGeneral SparseP LinAlg.
From Verif Require Export PreView.

Lemma bdir_eqb_spec a b : reflect (a = b) (bdir_eqb a b).
Proof. destruct a, b; constructor; (reflexivity || discriminate). Qed.
Lemma side_set {A} d e (p : A * A) x : side e (set_side d p x) = if bdir_eqb e d then x else side e p.
Proof. destruct d, e, p; reflexivity. Qed.
Lemma nth_pair_upd {A} (l : list (A * A)) i (p : A * A) (dflt : A * A) k e : (i < length l)%nat ->
  side e (nth k (upd l i p) dflt) = if Nat.eqb k i then side e p else side e (nth k l dflt).
Proof. intros H. rewrite upd_nth by assumption. destruct (Nat.eqb k i); reflexivity. Qed.

(** the matrix by columns and by rows *)
Record matrix_ok (g : general) (rows : list svec) : Prop := mk_mok {
  mo_cols : length (g_cols g) = nr_vars g;
  mo_rows : length rows = g_rows g;
  mo_in : forall i j c, In (j, c) (nth i rows []) <-> In (i, c) (nth j (g_cols g) []);
  mo_nd_col : forall j, NoDup (map fst (nth j (g_cols g) []));
  mo_nd_row : forall i, NoDup (map fst (nth i rows []));
  mo_nz : forall i j c, In (i, c) (nth j (g_cols g) []) -> c <> 0%Qc }.
Lemma mo_lt g rows i j c : matrix_ok g rows -> In (i, c) (nth j (g_cols g) []) -> (i < g_rows g)%nat /\ (j < nr_vars g)%nat.
Proof.
  intros M I. split.
  - apply (mo_in _ _ M) in I. destruct (Nat.lt_ge_cases i (length rows)) as [H|H]; [rewrite <- (mo_rows _ _ M); exact H|].
    rewrite nth_overflow in I by assumption. contradiction.
  - destruct (Nat.lt_ge_cases j (length (g_cols g))) as [H|H]; [rewrite <- (mo_cols _ _ M); exact H|].
    rewrite nth_overflow in I by assumption. contradiction.
Qed.

(** how often the counter of row [i], direction [e], is lowered when bound [d] appears *)
Definition hit (l : svec) (d : bdir) (i : nat) (e : bdir) : nat :=
  length (filter (fun '(k, c) => Nat.eqb k i && bdir_eqb e (bmul d c)) l).

Section Acts.
Variables (g : general) (rows : list svec).
Local Notation n := (nr_vars g).
Local Notation m := (g_rows g).
Hypothesis M : matrix_ok g rows.

Definition missing (s : pindex) (i : nat) (d : bdir) : nat := length (filter (lacks_bound g (i_u s) d) (active_row rows (i_c s) i)).
Record acts_ok (s : pindex) : Prop := mk_aok {
  ao_len : length (c_act (i_c s)) = m;
  ao_len' : length (i_act s) = m;
  ao_missing : forall i d, cc s i <> 0%nat -> ca s i d = missing s i d;
  ao_cache : forall i d, cc s i <> 0%nat -> cache s i d <> None -> ca s i d = 0%nat;
  ao_queue : forall i d, In (i, d) (q_act (i_q s)) -> cc s i <> 0%nat -> (ca s i d <= 1)%nat }.

Lemma push_act_spec s e : i_u (push_act s e) = i_u s /\ i_c (push_act s e) = i_c s /\ i_act (push_act s e) = i_act s /\
  q_sub (i_q (push_act s e)) = q_sub (i_q s) /\ q_bound (i_q (push_act s e)) = q_bound (i_q s) /\ q_slack (i_q (push_act s e)) = q_slack (i_q s) /\
  forall x, In x (q_act (i_q (push_act s e))) -> In x (q_act (i_q s)) \/ x = e.
Proof.
  unfold push_act. destruct (queued e (q_act (i_q s))); cbn; repeat split; auto. intros x H. apply in_app_or in H. destruct H as [H|[H|[]]]; auto.
Qed.
(** only what concerns propagation differs *)
Record same_rest (s s' : pindex) : Prop := mk_sr {
  sr_u : i_u s' = i_u s; sr_var : c_var (i_c s') = c_var (i_c s); sr_con : c_con (i_c s') = c_con (i_c s);
  sr_bound : q_bound (i_q s') = q_bound (i_q s); sr_slack : q_slack (i_q s') = q_slack (i_q s) }.
Lemma same_rest_refl s : same_rest s s. Proof. now constructor. Qed.
Lemma same_rest_trans a b c : same_rest a b -> same_rest b c -> same_rest a c.
Proof. intros [A1 A2 A3 A4 A5] [B1 B2 B3 B4 B5]. constructor; congruence. Qed.

Lemma lower_counters_spec d : forall l s, length (c_act (i_c s)) = m -> (forall i c, In (i, c) l -> (i < m)%nat) ->
  (forall i e, (hit l d i e <= ca s i e)%nat) ->
  pspec (foldP (lower_counter d) l s) (fun s' => same_rest s s' /\ i_act s' = i_act s /\ q_sub (i_q s') = q_sub (i_q s) /\
     length (c_act (i_c s')) = m /\
     (forall i e, ca s' i e = (ca s i e - hit l d i e)%nat) /\
     (forall i e, In (i, e) (q_act (i_q s')) -> In (i, e) (q_act (i_q s)) \/ (ca s' i e <= 1)%nat)) (fun _ => False) False.
Proof.
  induction l as [|[i c] l IH]; intros s L B H; cbn [foldP].
  - cbn. repeat split; auto. intros i e. lia.
  - assert (Li : (i < m)%nat) by (apply (B i c); now left).
    assert (Hh : forall k e, hit ((i, c) :: l) d k e = ((if Nat.eqb i k && bdir_eqb e (bmul d c) then 1 else 0) + hit l d k e)%nat).
    { intros k e. unfold hit. cbn [filter]. destruct (Nat.eqb i k && bdir_eqb e (bmul d c)); reflexivity. }
    destruct (ca s i (bmul d c)) as [|k] eqn:Ek.
    { specialize (H i (bmul d c)). rewrite Hh, Nat.eqb_refl, Ek in H. destruct (bdir_eqb_spec (bmul d c) (bmul d c)); [cbn in H; lia|congruence]. }
    set (s1 := with_c s (mk_pcounters (c_var (i_c s)) (c_con (i_c s)) (upd (c_act (i_c s)) i (set_side (bmul d c) (nth i (c_act (i_c s)) (0, 0)%nat) k)))).
    assert (C1 : forall k' e, ca s1 k' e = (ca s k' e - if Nat.eqb i k' && bdir_eqb e (bmul d c) then 1 else 0)%nat).
    { intros k' e. unfold ca at 1. cbn [i_c s1 with_c c_act]. rewrite nth_pair_upd by lia. rewrite side_set, (Nat.eqb_sym k' i). destruct (Nat.eqb_spec i k') as [<-|]; cbn [andb].
      - destruct (bdir_eqb_spec e (bmul d c)) as [->|]; [rewrite Ek; lia|]. unfold ca. lia.
      - unfold ca. lia. }
    assert (L1 : length (c_act (i_c s1)) = m) by (cbn; now rewrite upd_length).
    set (s2 := if Nat.leb (side (bmul d c) (nth i (c_act (i_c s1)) (0, 0)%nat)) 1 then push_act s1 (i, bmul d c) else s1).
    assert (P2 : i_u s2 = i_u s /\ i_c s2 = i_c s1 /\ i_act s2 = i_act s /\ q_sub (i_q s2) = q_sub (i_q s) /\ q_bound (i_q s2) = q_bound (i_q s) /\ q_slack (i_q s2) = q_slack (i_q s) /\
       forall k e, In (k, e) (q_act (i_q s2)) -> In (k, e) (q_act (i_q s)) \/ (ca s1 k e <= 1)%nat).
    { unfold s2. destruct (Nat.leb_spec (side (bmul d c) (nth i (c_act (i_c s1)) (0, 0)%nat)) 1) as [Hl|Hl].
      - destruct (push_act_spec s1 (i, bmul d c)) as (E1 & E2 & E3 & E4 & E5 & E6 & E7). rewrite E1, E2, E3, E4, E5, E6. repeat split.
        intros k' e I. apply E7 in I. destruct I as [I|I]; [now left|]. injection I as -> ->. right. exact Hl.
      - repeat split. intros k' e I. now left. }
    destruct P2 as (E1 & E2 & E3 & E4 & E5 & E6 & E7). 
    assert (E0 : lower_counter d s (i, c) = Go s2).
    { unfold lower_counter, dec_act. fold (ca s i (bmul d c)). rewrite Ek. cbn [pbind]. reflexivity. }
    rewrite E0. cbn [pbind].
    assert (C2 : forall k' e, ca s2 k' e = ca s1 k' e) by (intros; unfold ca; now rewrite E2).
    eapply pspec_impl; [apply IH| |auto|auto].
    + now rewrite E2.
    + intros k' c' I. apply (B k' c'). now right.
    + intros k' e. rewrite C2, C1. specialize (H k' e). rewrite Hh in H. lia.
    + cbn beta. intros s' ([R1 R2 R3 R4 R5] & A1 & A2 & A3 & A4 & A5). repeat split.
      * congruence.
      * rewrite R2, E2. reflexivity.
      * rewrite R3, E2. reflexivity.
      * congruence.
      * congruence.
      * congruence.
      * congruence.
      * assumption.
      * intros k' e. rewrite A4, C2, C1, Hh. lia.
      * intros k' e I. apply A5 in I. destruct I as [I|I]; [|now right]. apply E7 in I. destruct I as [I|I]; [now left|]. right. rewrite A4, C2. lia.
Qed.

Lemma shift_activities_spec d ch : forall l s, length (i_act s) = m -> (forall i c, In (i, c) l -> (i < m)%nat) ->
  let s' := fold_left (shift_activity d ch) l s in
  same_rest s s' /\ i_c s' = i_c s /\ q_sub (i_q s') = q_sub (i_q s) /\ length (i_act s') = m /\
  (forall i e, cache s' i e <> None -> cache s i e <> None) /\
  (forall i e, In (i, e) (q_act (i_q s')) -> In (i, e) (q_act (i_q s)) \/ cache s i e <> None).
Proof.
  induction l as [|[i c] l IH]; intros s L B; cbn [fold_left].
  - repeat split; auto.
  - assert (Li : (i < m)%nat) by (apply (B i c); now left).
    assert (B' : forall i0 c0, In (i0, c0) l -> (i0 < m)%nat) by (intros k e I; apply (B k e); now right).
    set (s1 := shift_activity d ch s (i, c)).
    assert (P : same_rest s s1 /\ i_c s1 = i_c s /\ q_sub (i_q s1) = q_sub (i_q s) /\ length (i_act s1) = m /\
      (forall k e, cache s1 k e <> None -> cache s k e <> None) /\
      (forall k e, In (k, e) (q_act (i_q s1)) -> In (k, e) (q_act (i_q s)) \/ cache s k e <> None)).
    { unfold s1, shift_activity. destruct (con_active (i_c s) i); [|repeat split; auto].
      fold (cache s i (bmul d c)). destruct (cache s i (bmul d c)) as [x|] eqn:Ex; [|repeat split; auto].
      set (t := with_act s _). destruct (push_act_spec t (i, bmul d c)) as (E1 & E2 & E3 & E4 & E5 & E6 & E7).
      assert (CT : forall k e, cache t k e <> None -> cache s k e <> None).
      { intros k e. unfold cache at 1. cbn [t with_act i_act]. rewrite nth_pair_upd by lia. rewrite side_set. destruct (Nat.eqb_spec k i) as [->|]; [|auto].
        destruct (bdir_eqb_spec e (bmul d c)) as [->|]; [rewrite Ex; discriminate|auto]. }
      repeat split; try (rewrite ?E1, ?E2, ?E4, ?E5, ?E6; reflexivity).
      - rewrite E3. cbn. now rewrite upd_length.
      - intros k e. unfold cache at 1. rewrite E3. apply CT.
      - intros k e I. apply E7 in I. destruct I as [I|I]; [now left|]. injection I as -> ->. right. rewrite Ex. discriminate. }
    destruct P as (R & C1 & Q1 & L1 & K1 & K2). destruct (IH s1 L1 B') as (R' & C2 & Q2 & L2 & K3 & K4).
    split; [exact (same_rest_trans _ _ _ R R')|]. repeat split; try congruence.
    + auto.
    + intros k e I. apply K4 in I. destruct I as [I|I]; auto.
Qed.

(** *** One bound changes *)
Lemma one_entry (l : svec) j c (P : Qc -> bool) : NoDup (map fst l) -> In (j, c) l ->
  length (filter (fun '(k, e) => Nat.eqb k j && P e) l) = if P c then 1%nat else 0%nat.
Proof.
  induction l as [|[k e] l IH]; intros ND I; [contradiction|]. cbn [map fst] in ND. apply NoDup_cons_iff in ND. destruct ND as [NI ND]. cbn [filter].
  destruct I as [E|I].
  - injection E as -> ->. rewrite Nat.eqb_refl. cbn [andb].
    assert (Z : filter (fun '(k, e) => Nat.eqb k j && P e) l = []).
    { clear -NI. induction l as [|[k e] l IH]; [reflexivity|]. cbn in *. destruct (Nat.eqb_spec k j); [exfalso; auto|]. cbn. apply IH. auto. }
    rewrite Z. destruct (P c); reflexivity.
  - destruct (Nat.eqb_spec k j) as [->|]; [exfalso; apply NI; now apply (in_map fst) in I|]. cbn. now apply IH.
Qed.
Lemma no_entry (l : svec) j (P : Qc -> bool) : ~ In j (map fst l) -> filter (fun '(k, e) => Nat.eqb k j && P e) l = [].
Proof. induction l as [|[k e] l IH]; intros H; [reflexivity|]. cbn in *. destruct (Nat.eqb_spec k j); [exfalso; auto|]. cbn. apply IH. auto. Qed.
Lemma filter_diff {A} (p q : A -> bool) l : (forall a, In a l -> q a = true -> p a = true) ->
  length (filter p l) = (length (filter q l) + length (filter (fun a => p a && negb (q a)) l))%nat.
Proof.
  induction l as [|a l IH]; intros H; [reflexivity|]. cbn. pose proof (H a (or_introl eq_refl)) as Ha.
  assert (H' : forall a, In a l -> q a = true -> p a = true) by (intros b I; apply H; now right).
  specialize (IH H'). destruct (p a), (q a); cbn; lia.
Qed.
Lemma bmul_swap d e c : bmul e c = d <-> e = bmul d c.
Proof. split; [intros <-; symmetry; apply bmul_bmul|intros ->; apply bmul_bmul]. Qed.
Lemma NoDup_fst_filter (p : nat * Qc -> bool) (l : svec) : NoDup (map fst l) -> NoDup (map fst (filter p l)).
Proof.
  induction l as [|a l IH]; cbn; intros H; [constructor|]. apply NoDup_cons_iff in H. destruct H as [NI ND]. destruct (p a); [|auto].
  cbn. constructor; [|auto]. intros I. apply NI. apply in_map_iff in I. destruct I as (b & E & I). apply filter_In in I. rewrite <- E. now apply in_map.
Qed.

Lemma missing_less s s' j d : i_c s' = i_c s -> cv s j <> 0%nat -> bound_of g (i_u s) j d = None ->
  (forall k e, bound_of g (i_u s') k e = None <-> bound_of g (i_u s) k e = None /\ is_at k e j d = false) ->
  forall i e, cc s i <> 0%nat -> missing s i e = (missing s' i e + hit (active_column g (i_c s) j) d i e)%nat.
Proof.
  intros EC J N B i e Ci. unfold missing. rewrite EC. rewrite (filter_diff (lacks_bound g (i_u s) e) (lacks_bound g (i_u s') e)).
  2:{ intros [k c] _. unfold lacks_bound. cbn. destruct (bound_of g (i_u s') k (bmul e c)) eqn:E; [discriminate|]. apply B in E. destruct E as [-> _]. reflexivity. }
  f_equal. 
  assert (E1 : filter (fun a => lacks_bound g (i_u s) e a && negb (lacks_bound g (i_u s') e a)) (active_row rows (i_c s) i) =
               filter (fun '(k, c) => Nat.eqb k j && bdir_eqb (bmul e c) d) (active_row rows (i_c s) i)).
  { apply filter_ext. intros [k c]. unfold lacks_bound. cbn. pose proof (B k (bmul e c)) as Bk. fold (is_at k (bmul e c) j d).
    destruct (is_at_spec k (bmul e c) j d) as [[-> ->]|Nk].
    - rewrite N. destruct (bound_of g (i_u s') j d); [reflexivity|]. destruct Bk as [Bk _]. destruct (Bk eq_refl); discriminate.
    - destruct (bound_of g (i_u s) k (bmul e c)); [destruct (bound_of g (i_u s') k (bmul e c)); reflexivity|].
      destruct (bound_of g (i_u s') k (bmul e c)); [|reflexivity]. destruct Bk as [_ Bk]. discriminate Bk. now split. }
  rewrite E1. unfold hit.
  destruct (in_dec Nat.eq_dec j (map fst (active_row rows (i_c s) i))) as [I|I].
  - apply in_map_iff in I. destruct I as ([j' c] & E & I). cbn in E. subst j'.
    rewrite (one_entry _ j c (fun c => bdir_eqb (bmul e c) d)); [|apply NoDup_fst_filter, (mo_nd_row _ _ M)|exact I].
    assert (I' : In (i, c) (active_column g (i_c s) j)).
    { unfold active_row in I. apply filter_In in I. destruct I as [I _]. apply (mo_in _ _ M) in I. unfold active_column. apply filter_In. split; [assumption|].
      rewrite con_active_cc. destruct (Nat.eqb_spec (cc s i) 0); [contradiction|reflexivity]. }
    rewrite (one_entry _ i c (fun c => bdir_eqb e (bmul d c))); [|apply NoDup_fst_filter, (mo_nd_col _ _ M)|exact I'].
    pose proof (bmul_swap d e c) as BS. destruct (bdir_eqb_spec (bmul e c) d), (bdir_eqb_spec e (bmul d c)); try reflexivity; tauto.
  - rewrite (no_entry _ j (fun c => bdir_eqb (bmul e c) d)) by assumption.
    rewrite (no_entry _ i (fun c => bdir_eqb e (bmul d c))); [reflexivity|]. intros I'. apply I. apply in_map_iff in I'. destruct I' as ([i' c] & E & I'). cbn in E. subst i'.
    unfold active_column in I'. apply filter_In in I'. destruct I' as [I' _]. apply (mo_in _ _ M) in I'.
    apply in_map_iff. exists (j, c). split; [reflexivity|]. unfold active_row. apply filter_In. split; [assumption|].
    rewrite var_active_cv. destruct (Nat.eqb_spec (cv s j) 0); [contradiction|reflexivity].
Qed.

Definition moved (u u' : updates) (j : nat) (d : bdir) (new : Qc) : Prop :=
  forall k e, bound_of g u' k e = if is_at k e j d then Some (tighten d (bound_of g u j d) new) else bound_of g u k e.
Lemma apply_change_spec s u' j d new : acts_ok s -> moved (i_u s) u' j d new ->
  (cv s j <> 0%nat \/ active_column g (i_c s) j = []) ->
  pspec (apply_change g (with_u s u') j d (change_of d (bound_of g (i_u s) j d) new))
    (fun s' => same_rest (with_u s u') s' /\ acts_ok s' /\
       forall k, In k (q_sub (i_q s')) -> In k (q_sub (i_q s)) \/ (k = j /\ fixed_value g u' j <> None)) (fun _ => False) False.
Proof.
  intros [A1 A2 A3 A4 A5] MV J. unfold change_of.
  assert (MB : bound_of g (i_u s) j d <> None -> forall i e, missing (with_u s u') i e = missing s i e).
  { intros N i e. unfold missing. cbn [with_u i_u i_c]. f_equal. apply filter_ext. intros [k c]. unfold lacks_bound. cbn. rewrite MV.
    destruct (is_at_spec k (bmul e c) j d) as [[-> ->]|]; [|reflexivity]. destruct (bound_of g (i_u s) j d); [reflexivity|congruence]. }
  (* after pushing to the queue of fixed variables *)
  set (s1 := match fixed_value g u' j with Some _ => if var_active (i_c s) j then push_sub (with_u s u') j else with_u s u' | None => with_u s u' end).
  assert (S1 : same_rest (with_u s u') s1 /\ i_c s1 = i_c s /\ i_act s1 = i_act s /\ q_act (i_q s1) = q_act (i_q s) /\
     forall k, In k (q_sub (i_q s1)) -> In k (q_sub (i_q s)) \/ (k = j /\ fixed_value g u' j <> None)).
  { unfold s1. destruct (fixed_value g u' j); [destruct (var_active (i_c s) j)|]; repeat split; cbn; auto. intros k [<-|H]; [right; split; [reflexivity|discriminate]|now left]. }
  destruct S1 as (R1 & C1 & Act1 & Q1 & Sub1). pose proof (sr_u _ _ R1) as U1. cbn in U1.
  assert (MS1 : forall i e, missing s1 i e = missing (with_u s u') i e) by (intros; unfold missing; cbn [with_u i_u i_c]; now rewrite C1, U1).
  assert (CC1 : forall i, cc s1 i = cc s i) by (intros; unfold cc; now rewrite C1).
  assert (CA1 : forall i e, ca s1 i e = ca s i e) by (intros; unfold ca; now rewrite C1).
  assert (BC : forall i c, In (i, c) (active_column g (i_c s) j) -> (i < m)%nat).
  { intros i c I. unfold active_column in I. apply filter_In in I. destruct I as [I _]. now apply (mo_lt g rows i j c M). }
  destruct (bound_of g (i_u s) j d) as [old|] eqn:B.
  - specialize (MB ltac:(discriminate)). destruct (tighter d new old).
    + cbn [apply_change after_bound_change]. cbn [with_u i_u i_c] in *. fold s1. unfold update_activity_bounds. rewrite C1.
      destruct (shift_activities_spec d (new - old) (active_column g (i_c s) j) s1) as (R2 & C2 & Sub2 & L2 & K2 & Q2); [congruence|assumption|].
      set (s2 := fold_left _ _ s1) in *. cbn [pspec]. split; [exact (same_rest_trans _ _ _ R1 R2)|]. split.
      * constructor.
        -- now rewrite C2, C1.
        -- assumption.
        -- intros i e Ci. assert (E1 : ca s2 i e = ca s i e) by (unfold ca; now rewrite C2, C1). rewrite E1, A3; [|unfold cc in *; now rewrite C2, C1 in Ci].
           rewrite <- MB. unfold missing. cbn [with_u i_u i_c]. rewrite C2, C1, (sr_u _ _ R2), U1. reflexivity.
        -- intros i e Ci K. assert (E1 : ca s2 i e = ca s i e) by (unfold ca; now rewrite C2, C1). rewrite E1. apply A4; [unfold cc in *; now rewrite C2, C1 in Ci|].
           apply K2 in K. unfold cache in *. now rewrite Act1 in K.
        -- intros i e I Ci. assert (E1 : ca s2 i e = ca s i e) by (unfold ca; now rewrite C2, C1). rewrite E1.
           assert (Ci' : cc s i <> 0%nat) by (unfold cc in *; now rewrite C2, C1 in Ci).
           apply Q2 in I. destruct I as [I|I]; [apply A5; [now rewrite <- Q1|assumption]|]. rewrite A4; [lia|assumption|]. unfold cache in *. now rewrite Act1 in I.
      * intros k I. rewrite Sub2 in I. now apply Sub1.
    + cbn. split; [apply same_rest_refl|]. split; [|auto]. constructor; auto. intros i e Ci. change (ca (with_u s u') i e) with (ca s i e). rewrite A3; [symmetry; apply MB|exact Ci].
  - cbn [apply_change after_bound_change]. cbn [with_u i_u i_c] in *. fold s1. unfold update_activity_counters. rewrite C1. clear MB.
    destruct J as [J|J].
    + assert (ML : forall i e, cc s i <> 0%nat -> missing s i e = (missing (with_u s u') i e + hit (active_column g (i_c s) j) d i e)%nat).
      { intros i e. apply (missing_less s (with_u s u') j d); [reflexivity|assumption|assumption|]. cbn [with_u i_u]. intros k e'. rewrite MV.
        destruct (is_at k e' j d); split; try discriminate; [intros [_ H]; discriminate|intros H; now split|intros [H _]; exact H]. }
      assert (HZ : forall i e, cc s i = 0%nat -> hit (active_column g (i_c s) j) d i e = 0%nat).
      { intros i e Z. unfold hit. rewrite (no_entry _ i (fun c => bdir_eqb e (bmul d c))); [reflexivity|]. intros I. apply in_map_iff in I. destruct I as ([i' c] & E & I). cbn in E. subst i'.
        unfold active_column in I. apply filter_In in I. destruct I as [_ I]. rewrite con_active_cc, Z in I. discriminate. }
      eapply pspec_impl; [apply lower_counters_spec| |auto|auto].
      * congruence.
      * assumption.
      * intros i e. rewrite CA1. destruct (Nat.eq_dec (cc s i) 0) as [Z|Z]; [rewrite HZ by assumption; lia|]. rewrite A3 by assumption. rewrite ML by assumption. lia.
      * cbn beta. intros s2 (R2 & Act2 & Sub2 & L2 & CA2 & Q2).
        assert (CC2 : forall i, cc s2 i = cc s i) by (intros i; unfold cc; rewrite (sr_con _ _ R2), C1; reflexivity).
        split; [exact (same_rest_trans _ _ _ R1 R2)|]. split.
        -- constructor.
           ++ assumption.
           ++ congruence.
           ++ intros i e Ci. rewrite CC2 in Ci. rewrite CA2, CA1, A3, ML by assumption.
              assert (E1 : missing s2 i e = missing (with_u s u') i e).
              { unfold missing, active_row, var_active. cbn [with_u i_u i_c]. rewrite (sr_u _ _ R2), U1, (sr_var _ _ R2), C1. reflexivity. }
              rewrite E1. lia.
           ++ intros i e Ci K. rewrite CC2 in Ci. rewrite CA2, CA1, A4; [lia|assumption|]. unfold cache in *. now rewrite Act2, Act1 in K.
           ++ intros i e I Ci. rewrite CC2 in Ci. apply Q2 in I. destruct I as [I|I]; [|exact I]. rewrite Q1 in I. specialize (A5 i e I Ci). rewrite CA2, CA1. lia.
        -- intros k I. rewrite Sub2 in I. now apply Sub1.
    + rewrite J. cbn [foldP pspec]. split; [exact R1|]. split; [|exact Sub1].
      constructor; try (rewrite ?C1; congruence).
      * intros i e Ci. rewrite CC1 in Ci. rewrite CA1, A3 by assumption. rewrite MS1. unfold missing. cbn [with_u i_u i_c]. f_equal. apply filter_ext_in.
        intros [k c] I. unfold lacks_bound. cbn. rewrite MV. destruct (is_at_spec k (bmul e c) j d) as [[-> E]|]; [|reflexivity].
        (* row i is active and has no entry of j *)
        exfalso. unfold active_row in I. apply filter_In in I. destruct I as [I _]. apply (mo_in _ _ M) in I.
        assert (In (i, c) (active_column g (i_c s) j)); [|rewrite J in *; contradiction]. unfold active_column. apply filter_In. split; [assumption|].
        rewrite con_active_cc. destruct (Nat.eqb_spec (cc s i) 0); [contradiction|reflexivity].
      * intros i e Ci K. rewrite CC1 in Ci. rewrite CA1. apply A4; [assumption|]. unfold cache in *. now rewrite Act1 in K.
      * intros i e I Ci. rewrite CC1 in Ci. rewrite CA1. apply A5; [now rewrite <- Q1|assumption].
Qed.
End Acts.
