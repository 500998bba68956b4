(** * Builds with debug assertions: converting what was read (proofs about TextD.v) *)
From Coq Require Import Sorted.
From Verif Require Import SpecParse MpsParse NumberP TextP PermP RangesP BoundsP MpsP ParseP GroupP FileP AcceptP AcceptFileP DebugLuP.
From Verif Require Import DebugPhase.
From Verif Require Export TextDP PipelineDQ.
Local Open Scope string_scope.
Local Open Scope list_scope.

(** ** A debug build panics or does what a release build does *)
Lemma bounds_or_crash vars bounds : or_crash (process_bounds_d vars bounds) (process_bounds vars bounds).
Proof. unfold process_bounds_d, process_bounds. skip. apply oc_bind; [apply oc_same|]. intros s _. match goal with |- or_crash (if ?c then _ else _) _ => destruct c end; [apply oc_same|]. skip. skip. apply oc_same. Qed.
Lemma step_or_crash rows st e : or_crash (b_step_d rows st e) (b_step rows st e).
Proof.
  destruct st as [b types], e as [i v]. unfold b_step_d, oindex. destruct (nth_error b i) as [[c|]|] eqn:E; cbn [obind]; [|apply oc_same|now left].
  destruct (nth_error types i); cbn [obind]; [|now left]. skip. apply oc_same.
Qed.
Lemma fold_or_crash {A S} (f g : S -> A -> out S) : (forall s a, or_crash (f s a) (g s a)) -> forall l s, or_crash (foldO f l s) (foldO g l s).
Proof. intros H. induction l as [|a l IH]; intros s; [apply oc_same|]. cbn [foldO]. apply oc_bind; [apply H|]. intros s' _. apply IH. Qed.
Lemma info_or_crash rows rhss ranges : or_crash (compute_constraint_info_d rows rhss ranges) (compute_constraint_info rows rhss ranges).
Proof.
  unfold compute_constraint_info_d, compute_constraint_info. apply oc_bind; [apply oc_same|]. intros l _. unfold compute_constraint_types_d. destruct (is_strict _); [|now left]. cbn [oassert obind].
  destruct (all_below _ _); [|now left]. cbn [oassert obind]. apply oc_bind; [|intros x _; apply oc_same]. unfold compute_b_d, compute_b. skip. skip. apply oc_bind; [apply fold_or_crash, step_or_crash|]. intros st _. skip. apply oc_same.
Qed.
Lemma convert_or_crash m : or_crash (to_general_d m) (to_general m).
Proof.
  unfold to_general_d, to_general, compute_variable_info_d. destruct (oassert_cases (distinct_names (map col_name (m_columns m)))) as [->| ->]; [|now left]. cbn [obind].
  destruct (oassert_cases (is_sorted (map fst (m_costs m)))) as [->| ->]; [|now left]. cbn [obind].
  destruct (bounds_or_crash (variables_from 0 (m_columns m) (m_costs m)) (m_bounds m)) as [->| ->]; [now left|]. destruct (process_bounds _ _) as [vars| |]; cbn [obind]; [|apply oc_same|apply oc_same].
  match goal with |- context [oassert ?c] => destruct (oassert_cases c) as [->| ->] end; [|now left]. cbn [obind]. apply oc_bind; [apply info_or_crash|]. intros info _.
  unfold new_general_d. destruct (is_consistent _); [now right|now left].
Qed.

(** ** Bounds *)
Definition untouched (st : bound_state) : Prop := snd (fst st) = true -> v_lower (fst (fst st)) = None.
Lemma entry_untouched s e s' : (forall st, In st s -> untouched st) -> process_entry s e = Got s' -> length s' = length s /\ forall st, In st s' -> untouched st.
Proof.
  intros U H. destruct e as [j t]. unfold process_entry in H. got H as st E. destruct st as [[v needs] fr]. got H as r P. destruct r as [[v' needs'] fr']. injection H as <-.
  split; [apply upd_length|]. unfold oindex in E. destruct (nth_error s j) as [st|] eqn:Ej; [|discriminate]. injection E as ->. assert (K : untouched (v, needs, fr)) by (apply U; now apply nth_error_In in Ej).
  intros st H. apply In_nth_error in H. destruct H as [k H]. rewrite upd_nth_error in H. destruct (Nat.eqb k j && (j <? length s)%nat)%bool; [|apply U; now apply nth_error_In in H]. injection H as <-.
  intros N. cbn [fst snd] in *. apply andb_true_iff in N. destruct N as [N1 N2]. specialize (K N1). cbn [fst] in K. subst needs needs'. unfold process_bound in P.
  destruct t; try discriminate; try (injection P as <-; exact K). destruct (v_lower v), (v_upper v); discriminate.
Qed.
Lemma entries_untouched : forall l s s', (forall st, In st s -> untouched st) -> foldO process_entry l s = Got s' -> length s' = length s /\ forall st, In st s' -> untouched st.
Proof.
  induction l as [|e l IH]; intros s s' U H; cbn [foldO] in H; [injection H as <-; now split|]. got H as s1 E. destruct (entry_untouched s e s1 U E) as [L1 U1]. destruct (IH s1 s' U1 H) as [L2 U2]. split; [congruence|assumption].
Qed.
Lemma bounds_same vars bounds : (forall v, In v vars -> unbounded_variable v) -> process_bounds_d vars bounds = process_bounds vars bounds.
Proof.
  intros UV. unfold process_bounds_d, process_bounds. rewrite oasserted.
  2:{ apply forallb_forall. intros v H. destruct (UV v H) as [A B]. unfold has_bound. now rewrite A, B. }
  destruct (foldO process_entry _ _) as [s| |] eqn:E; cbn [obind]; [|reflexivity|reflexivity]. match goal with |- (if ?c then _ else _) = _ => destruct c end; [reflexivity|].
  destruct (entries_untouched (ungroup bounds) (map (fun v => (v, true, false)) vars) s) as [L U]; [|exact E|].
  { intros st H. apply in_map_iff in H. destruct H as (v & <- & H). intros _. apply (UV v H). }
  rewrite map_length in L. rewrite oasserted by now apply Nat.eqb_eq. rewrite oasserted; [reflexivity|]. apply forallb_forall. intros [[v needs] fr] H. specialize (U _ H). unfold untouched in U. cbn [fst snd] in U.
  destruct needs; [|reflexivity]. now rewrite (U eq_refl).
Qed.

(** ** Right-hand sides *)
Lemma times_zero i l : times i l = 0%nat <-> ~ In i (map fst l).
Proof.
  unfold times. induction l as [|[k v] l IH]; [split; [intros _ []|reflexivity]|]. cbn [filter map fst In]. destruct (Nat.eqb_spec k i) as [->|N].
  - split; [discriminate|intros X; elim X; now left].
  - rewrite IH. split; [intros H [E|K]; [now apply N|now apply H]|tauto].
Qed.
Definition is_range_t (t : rel) : bool := match t with Range _ => true | _ => false end.
Lemma row_step_range k o t v o' t' : row_step k (o, t) v = Got (o', t') -> is_range_t t' = is_range_t t /\ o' <> None.
Proof.
  unfold row_step. destruct o as [c|].
  - destruct k; intros H.
    + injection H as <- <-. split; [reflexivity|destruct (qltb v c); discriminate].
    + destruct (qeqb v c); [|discriminate]. injection H as <- <-. split; [reflexivity|discriminate].
    + injection H as <- <-. split; [reflexivity|destruct (qltb c v); discriminate].
  - destruct t; intros H; injection H as <- <-; (split; [reflexivity|discriminate]).
Qed.
Section Rows.
Variable rows : list mrow.
Definition once (l : list (nat * Qc)) (st : list (option Qc) * list rel) : Prop := forall i o t, row_get st i = Some (o, t) -> is_range_t t = true ->
  match o with Some _ => ~ In i (map fst l) | None => (times i l <= 1)%nat end.
Lemma step_cases st i v : row_inv rows st ->
  (exists o t, row_get st i = Some (o, t) /\ b_step_d rows st (i, v) = match o with Some _ => if is_range_t t then Crashed else b_step rows st (i, v) | None => b_step rows st (i, v) end) \/
  (row_get st i = None /\ b_step_d rows st (i, v) = Crashed).
Proof.
  destruct st as [b types]. intros [L1 L2]. unfold row_get, b_step_d, oindex. cbn [fst snd] in *. destruct (nth_error b i) as [o|] eqn:Eb; cbn [obind]; [|now right].
  assert (Lb : (i < length b)%nat) by (apply nth_error_Some; congruence). destruct (nth_error types i) as [t|] eqn:Et; [|apply nth_error_None in Et; lia]. left. exists o, t. split; [reflexivity|].
  destruct o as [c|]; cbn [obind]; [|reflexivity]. destruct t; reflexivity.
Qed.
Lemma once_step st i v s' : row_inv rows st -> b_step rows st (i, v) = Got s' ->
  exists o t a', row_get st i = Some (o, t) /\ row_step (kind_at rows i) (o, t) v = Got a' /\ row_inv rows s' /\ forall k, row_get s' k = if Nat.eqb k i then Some a' else row_get st k.
Proof.
  intros I H. destruct (row_get st i) as [[o t]|] eqn:G; [|rewrite (b_step_none rows st i v I G) in H; discriminate]. pose proof (b_step_some rows st i v (o, t) I G) as B.
  destruct (row_step (kind_at rows i) (o, t) v) as [a'| |] eqn:S; [|congruence|congruence]. destruct B as (s1 & E & I1 & K). rewrite E in H. injection H as <-. exists o, t, a'. exact (conj eq_refl (conj S (conj I1 K))).
Qed.
Lemma times_cons i k v l : times i ((k, v) :: l) = ((if Nat.eqb k i then 1 else 0) + times i l)%nat.
Proof. unfold times. cbn [filter fst]. destruct (Nat.eqb k i); reflexivity. Qed.
Lemma fold_once : forall l st, row_inv rows st -> once l st -> foldO (b_step_d rows) l st = foldO (b_step rows) l st.
Proof.
  induction l as [|[i v] l IH]; intros st I O; [reflexivity|]. cbn [foldO].
  assert (E : b_step_d rows st (i, v) = b_step rows st (i, v)).
  { destruct (step_cases st i v I) as [(o & t & G & ->)|[G ->]]; [|symmetry; now apply b_step_none]. destruct o as [c|]; [|reflexivity]. destruct (is_range_t t) eqn:T; [|reflexivity]. elim (O i _ t G T). now left. }
  rewrite E. destruct (b_step rows st (i, v)) as [s'| |] eqn:B; cbn [obind]; [|reflexivity|reflexivity]. destruct (once_step st i v s' I B) as (o & t & [o' t'] & G & S & I' & K). apply IH; [assumption|].
  intros k ok tk GK TK. rewrite K in GK. destruct (Nat.eqb_spec k i) as [->|N].
  - injection GK as <- <-. destruct (row_step_range _ _ _ _ _ _ S) as [T1 T2]. rewrite T1 in TK. specialize (O i o t G TK). destruct o' as [x|]; [|congruence]. destruct o as [c|]; [elim O; now left|].
    rewrite times_cons, Nat.eqb_refl in O. apply times_zero. lia.
  - specialize (O k ok tk GK TK). destruct ok as [c|]; [intros X; apply O; now right|]. rewrite times_cons in O. destruct (Nat.eqb i k); lia.
Qed.
Lemma fold_got : forall l st st', row_inv rows st -> foldO (b_step_d rows) l st = Got st' -> once l st.
Proof.
  induction l as [|[i v] l IH]; intros st st' I H; cbn [foldO] in H.
  - intros k o t G T. destruct o; [intros []|cbn; lia].
  - got H as s1 E. destruct (step_cases st i v I) as [(o & t & G & X)|[G X]]; [|congruence].
    assert (B : b_step rows st (i, v) = Got s1 /\ (is_range_t t = true -> o = None)).
    { rewrite E in X. destruct o as [c|]; [|split; [now symmetry|reflexivity]]. destruct (is_range_t t); [discriminate|]. split; [now symmetry|discriminate]. }
    destruct B as [B NO]. destruct (once_step st i v s1 I B) as (o0 & t0 & [o' t'] & G' & S & I' & K). rewrite G in G'. injection G' as <- <-. specialize (IH s1 st' I' H).
    intros k ok tk GK TK. destruct (Nat.eqb_spec k i) as [->|N].
    + rewrite G in GK. injection GK as <- <-. rewrite (NO TK). rewrite times_cons, Nat.eqb_refl. destruct (row_step_range _ _ _ _ _ _ S) as [T1 T2]. specialize (IH i o' t'). rewrite K, Nat.eqb_refl in IH. specialize (IH eq_refl). rewrite T1 in IH.
      specialize (IH TK). destruct o' as [x|]; [|congruence]. apply times_zero in IH. rewrite IH. lia.
    + specialize (IH k ok tk). rewrite K in IH. destruct (Nat.eqb_spec k i) as [Q|_]; [contradiction|]. specialize (IH GK TK). destruct ok as [c|]; [intros [Q|Q]; [cbn in Q; congruence|now apply IH]|].
      rewrite times_cons. destruct (Nat.eqb_spec i k); [congruence|exact IH].
Qed.
End Rows.

(** ** What was read *)
(** the structures that the parsers give *)
Record parsed (m : mps) : Prop := mk_parsed {
  pa_costs : StronglySorted le (map fst (m_costs m));
  pa_values : forall c, In c (m_columns m) -> increasing_from 0 (map fst (col_values c)) /\ forall i v, In (i, v) (col_values c) -> (i < length (m_rows m))%nat;
  pa_rhs : forall g, In g (m_rhss m) -> increasing_from 0 (map fst (grp_values g));
  pa_rhs_rows : forall i b, given_rhs m i b -> (i < length (m_rows m))%nat;
  pa_range_rows : forall i r, given_range m i r -> (i < length (m_rows m))%nat
}.
Lemma ascending_keys {A} n : forall (l : list (nat * A)) lo, ascending lo n l -> increasing_from lo (map fst l) /\ forall i, In i (map fst l) -> (i < n)%nat.
Proof.
  induction l as [|[i v] l IH]; intros lo H; [split; [exact Logic.I|intros i []]|]. destruct H as [H1 H2]. destruct (IH (S i) H2) as [A1 A2]. cbn [map fst increasing_from]. split; [split; [lia|assumption]|].
  intros k [<-|K]; [lia|now apply A2].
Qed.
Section Convert.
Variable m : mps.
Hypothesis P : parsed m.
Lemma info_exact info : compute_constraint_info_d (m_rows m) (m_rhss m) (m_ranges m) = Got info <->
  compute_constraint_info (m_rows m) (m_rhss m) (m_ranges m) = Got info /\ forall i r, given_range m i r -> r <> 0%Qc -> (times i (ungroup (m_rhss m)) <= 1)%nat.
Proof using P.
  unfold compute_constraint_info_d, compute_constraint_info.
  destruct (compute_ranges_outcome (m_rhss m) (m_ranges m) (length (m_rows m)) (pa_rhs_rows m P) (pa_range_rows m P)) as [[[ND RR] (rr & -> & AL & IL)]|[NG ->]].
  2:{ cbn [obind]. split; [discriminate|intros [X _]; discriminate]. }
  cbn [obind]. destruct (ascending_keys _ _ _ AL) as [K1 K2]. unfold compute_constraint_types_d. rewrite oasserted by now apply (increasing_strict _ 0). rewrite oasserted by now apply below_In. cbn [obind].
  unfold compute_b_d, compute_b. rewrite oasserted.
  2:{ apply forallb_forall. intros g G. apply (DebugPhase.increasing_sorted _ 0). now apply (pa_rhs m P). }
  rewrite oasserted.
  2:{ apply forallb_forall. intros g G. apply below_In. intros i H. apply in_map_iff in H. destruct H as ([i' b] & <- & H). apply (pa_rhs_rows m P i' b). apply in_flat_map. now exists g. }
  set (types0 := types_from 0 (m_rows m) rr). destruct (types_from_spec (m_rows m) 0 rr _ AL) as [LT HT]. fold types0 in LT, HT.
  assert (I0 : row_inv (m_rows m) (repeat None (length (m_rows m)), types0)) by (split; cbn; [apply repeat_length|assumption]).
  assert (ON : once (ungroup (m_rhss m)) (repeat None (length (m_rows m)), types0) <-> forall i r, given_range m i r -> r <> 0%Qc -> (times i (ungroup (m_rhss m)) <= 1)%nat).
  { split.
    - intros O i r Gr NZ. pose proof (pa_range_rows m P i r Gr) as L. destruct (HT i _ (nth_error_nth' (m_rows m) (mk_mrow "" KEqual) L)) as (t & Et & CT). cbn [Nat.add] in CT.
      apply (O i None t).
      + unfold row_get. cbn [fst snd]. rewrite Et. rewrite (nth_error_nth' (repeat None (length (m_rows m))) None) by now rewrite repeat_length. now rewrite nth_repeat.
      + destruct CT as [(r' & H & ->)|[H _]]; [|elim (H r); now apply IL]. apply IL in H. rewrite (range_unique _ i r' r ND H Gr). destruct (qzero r) eqn:Z; [apply qeqb_true in Z; contradiction|reflexivity].
    - intros H i o t G T. unfold row_get in G. cbn [fst snd] in G. destruct (nth_error (repeat None (length (m_rows m))) i) as [o'|] eqn:Eb; [|discriminate]. destruct (nth_error types0 i) as [t'|] eqn:Et; [|discriminate].
      injection G as -> ->. assert (o = None) by (apply nth_error_In in Eb; now apply repeat_spec in Eb). subst o.
      assert (L : (i < length (m_rows m))%nat) by (rewrite <- LT; apply nth_error_Some; congruence).
      destruct (HT i _ (nth_error_nth' (m_rows m) (mk_mrow "" KEqual) L)) as (t1 & Et1 & CT). cbn [Nat.add] in CT. assert (t1 = t) by congruence. subst t1.
      destruct CT as [(r & K & Q)|[_ ->]]; [|destruct (row_kind _); discriminate]. apply (H i r); [now apply IL|]. intros ->. subst t. discriminate. }
  rewrite <- ON. split.
  - intros H. got H as x E. injection H as <-. got E as st F. apply oassert_got in E. destruct E as [_ E]. injection E as <-. pose proof (fold_got (m_rows m) _ _ _ I0 F) as O. split; [|assumption].
    rewrite (fold_once (m_rows m) _ _ I0 O) in F. rewrite F. reflexivity.
  - intros [H O]. rewrite (fold_once (m_rows m) _ _ I0 O). got H as x E. injection H as <-. got E as st F. injection E as <-. rewrite F. cbn [obind]. rewrite oasserted; [reflexivity|]. apply Nat.eqb_eq. rewrite map_length.
    destruct (fold_step row_get (b_step (m_rows m)) (fun i => row_step (kind_at (m_rows m) i)) (row_inv (m_rows m)) (b_step_none (m_rows m)) (b_step_some (m_rows m)) _ _ _ I0 F) as [[L1 L2] _]. exact L1.
Qed.
Lemma variables_length : forall columns j costs, length (variables_from j columns costs) = length columns.
Proof. induction columns as [|c columns IH]; intros j costs; [reflexivity|]. cbn [variables_from]. destruct (next_if j costs) as [o rest]. cbn [length]. now rewrite IH. Qed.
Lemma info_lengths types b : compute_constraint_info (m_rows m) (m_rhss m) (m_ranges m) = Got (types, b) -> length types = length (m_rows m) /\ length b = length (m_rows m).
Proof using P.
  unfold compute_constraint_info. destruct (compute_ranges_outcome (m_rhss m) (m_ranges m) (length (m_rows m)) (pa_rhs_rows m P) (pa_range_rows m P)) as [[[ND RR] (rr & -> & AL & IL)]|[NG ->]]; [|discriminate].
  cbn [obind]. unfold compute_b. destruct (types_from_spec (m_rows m) 0 rr _ AL) as [LT HT]. intros H. got H as x E. injection H as <- <-. got E as st F. injection E as <-. cbn [fst snd].
  assert (I0 : row_inv (m_rows m) (repeat None (length (m_rows m)), types_from 0 (m_rows m) rr)) by (split; cbn; [apply repeat_length|assumption]).
  destruct (fold_step row_get (b_step (m_rows m)) (fun i => row_step (kind_at (m_rows m) i)) (row_inv (m_rows m)) (b_step_none (m_rows m)) (b_step_some (m_rows m)) _ _ _ I0 F) as [[L1 L2] _]. rewrite map_length. now split.
Qed.
Lemma major_parsed : major_ok (map col_values (m_columns m)) (length (map col_name (m_columns m))) (length (m_rows m)) = true <->
  forall c i v, In c (m_columns m) -> In (i, v) (col_values c) -> v <> 0%Qc.
Proof using P.
  unfold major_ok. rewrite !map_length, Nat.eqb_refl. cbn [andb]. rewrite !andb_true_iff. split.
  - intros [_ H] c i v C V. rewrite forallb_forall in H. specialize (H (col_values c) (in_map _ _ _ C)). unfold all_nonzero in H. rewrite forallb_forall in H. specialize (H (i, v) V). cbn [snd] in H. apply negb_true_iff in H. now apply qeqb_false in H.
  - intros H. repeat split; apply forallb_forall; intros l L; apply in_map_iff in L; destruct L as (c & <- & C); destruct (pa_values m P c C) as [V1 V2].
    + now apply (DebugPhase.increasing_sorted _ 0).
    + apply below_In. intros i I. apply in_map_iff in I. destruct I as ([i' v] & <- & I). now apply (V2 i' v).
    + unfold all_nonzero. apply forallb_forall. intros [i v] I. cbn [snd]. apply negb_true_iff. apply qeqb_false. now apply (H c i v).
Qed.
Theorem convert_exact g : to_general_d m = Got g <-> to_general m = Got g /\ clean m.
Proof using P.
  unfold to_general_d, to_general, compute_variable_info_d.
  assert (VU : process_bounds_d (variables_from 0 (m_columns m) (m_costs m)) (m_bounds m) = process_bounds (variables_from 0 (m_columns m) (m_costs m)) (m_bounds m)) by apply bounds_same, variables_from_unbounded.
  assert (NG : forall vars info, process_bounds (variables_from 0 (m_columns m) (m_costs m)) (m_bounds m) = Got vars -> compute_constraint_info (m_rows m) (m_rhss m) (m_ranges m) = Got info ->
    new_general_d (m_objective m) (length (m_rows m)) (map col_values (m_columns m)) (fst info) (snd info) vars (map col_name (m_columns m)) 0 =
    Ok (new_general (m_objective m) (length (m_rows m)) (map col_values (m_columns m)) (fst info) (snd info) vars (map col_name (m_columns m)) 0)).
  { intros vars [types b] EV EI. destruct (info_lengths types b EI) as [LT LB]. destruct (process_bounds_got _ _ _ (variables_from_unbounded _ _ _) EV) as [LV _]. rewrite variables_length in LV.
    unfold new_general_d. rewrite asserted; [reflexivity|]. apply new_consistent; cbn [fst snd]; rewrite ?map_length; first [assumption | reflexivity]. }
  split.
  - intros H. got H as vars EV. apply oassert_got in EV. destruct EV as [ND EV]. apply oassert_got in EV. destruct EV as [_ EV]. rewrite VU in EV. got EV as vars' EV'. apply oassert_got in EV. destruct EV as [MJ EV]. injection EV as ->.
    got H as info EI. apply info_exact in EI. destruct EI as [EI ON]. rewrite EV'. cbn [obind]. rewrite EI. cbn [obind]. rewrite (NG vars info EV' EI) in H. injection H as <-. split; [reflexivity|].
    constructor; [now apply distinct_names_spec|now apply major_parsed|exact ON].
  - intros [H [C1 C2 C3]]. got H as vars EV. got H as info EI. injection H as <-. rewrite oasserted by now apply distinct_names_spec. rewrite oasserted by now apply sorted_le_b, (pa_costs m P). rewrite VU, EV. cbn [obind].
    rewrite oasserted by now apply major_parsed. cbn [obind]. rewrite (proj2 (info_exact info) (conj EI C3)). cbn [obind]. rewrite (NG vars info EV EI). reflexivity.
Qed.
End Convert.

(** ** The parsers give such structures *)
Lemma save_groups_increasing new s s' : (forall g, In g (gs_done s) -> increasing_from 0 (map fst (grp_values g))) -> @save_to_group_collector Qc false new s = Got s' ->
  forall g, In g (gs_done s') -> increasing_from 0 (map fst (grp_values g)).
Proof.
  intros H. unfold save_to_group_collector. destruct (gs_active s) as [a|]; [|intros E; injection E as <-; exact H]. cbn [negb andb]. destruct (adjacent same_index (sort_by fst (gs_values s))) eqn:D; [discriminate|].
  intros E. injection E as <-. cbn [gs_done]. intros g G. apply in_app_or in G. destruct G as [G|[<-|[]]]; [now apply H|]. cbn [grp_values]. apply sort_by_increasing. now apply sorted_nodup.
Qed.
Lemma line_groups_increasing R rows l s s' : (forall g, In g (gs_done s) -> increasing_from 0 (map fst (grp_values g))) -> parse_value_section_line Checked R rows l s = Got s' ->
  forall g, In g (gs_done s') -> increasing_from 0 (map fst (grp_values g)).
Proof.
  assert (SP : forall r v s s', save_group_pair Checked rows r v s = Got s' -> gs_done s' = gs_done s).
  { intros r v s0 s0' H. unfold save_group_pair in H. destruct (row_index rows r), (parse_number Checked v); try discriminate. injection H as <-. reflexivity. }
  intros H E. unfold parse_value_section_line in E. got E as x X. destruct x as [[[name r] v] rest]. got E as s1 C. got E as s2 S2. got E as more M.
  assert (Q : gs_done s' = gs_done s1).
  { apply SP in S2. rewrite <- S2. destruct more as [[r' v']|]; [now apply SP in E|injection E as <-; reflexivity]. }
  rewrite Q. unfold change_group in C. destruct (gs_active s) as [a|]; [|injection C as <-; exact H]. destruct (String.eqb a name); [injection C as <-; exact H|]. now apply (save_groups_increasing (Some name) s s1 H).
Qed.
Lemma section_groups_increasing R valid rows : forall ls s groups next rest, (forall g, In g (gs_done s) -> increasing_from 0 (map fst (grp_values g))) -> parse_optional_section Checked R valid rows ls s = Got (groups, next, rest) ->
  forall g, In g groups -> increasing_from 0 (map fst (grp_values g)).
Proof.
  induction ls as [|l ls IH]; intros s groups next rest H E; [discriminate|]. cbn [parse_optional_section] in E. destruct (is_part_of_same_section l).
  - got E as s1 S1. apply (IH s1 groups next rest); [|assumption]. now apply (line_groups_increasing R rows l s s1 H).
  - got E as nx T. got E as s1 S1. injection E as <- <- <-. now apply (save_groups_increasing None s s1 H).
Qed.
Lemma read_parsed R text m : parse_with R Checked text = Got m -> parsed m.
Proof.
  unfold parse_with. intros H. got H as [name ls1] E1. got H as [d ls2] E2. got H as [[cost0 rows0] ls3] E3. got H as [cost srows] E4. got H as [[[cols costs] nc] ls4] E5. got H as [[gh nh] ls5] E6. got H as [[gg ng] ls6] E7. got H as u E8. got H as [gb ls7] E9.
  destruct ls7; [|discriminate]. injection H as <-.
  destruct (columns_accepted R Checked cost srows _ _ _ _ _ _ (mk_ck srows (mk_cols [] [] [] None false) (fun _ => eq_refl) (fun i v (H : In (i, v) []) => match H with end) (fun c (H : In c []) => match H with end) (SSorted_nil le) (fun j v (H : In (j, v) []) => match H with end)) E5)
    as (_ & _ & _ & _ & _ & _ & _ & _ & _ & DC & SC & BC).
  assert (GI : groups_inv (length srows) (@no_groups Qc)) by (constructor; [reflexivity|intros i v []]).
  constructor; cbn [m_costs m_columns m_rows m_rhss m_ranges].
  - exact SC.
  - exact DC.
  - destruct (section_eqb nc SRhs); [|injection E6 as <- _ _; intros g []]. apply (section_groups_increasing R _ _ _ no_groups _ _ _ (fun g (H : In g []) => match H with end) E6).
  - unfold given_rhs. cbn [m_rhss m_rows]. destruct (section_eqb nc SRhs); [|injection E6 as <- _ _; intros i b []]. destruct (values_accepted R Checked srows _ _ _ _ _ _ GI E6) as (_ & _ & _ & _ & _ & _ & _ & _ & B & _). exact B.
  - unfold given_range. cbn [m_ranges m_rows]. destruct (section_eqb nh SRanges); [|injection E7 as <- _ _; intros i b []]. destruct (values_accepted R Checked srows _ _ _ _ _ _ GI E7) as (_ & _ & _ & _ & _ & _ & _ & _ & B & _). exact B.
Qed.
